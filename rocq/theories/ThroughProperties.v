(** Property C79: keys which no mapping mentions, from the grabbed keyboard to the
    virtual one. *)
From Coq Require Import String List Arith NArith ZArith Bool Lia SpecFloat.
From Verif Require Import Base Key Match Stage Text ParseSeq Config MultiStage Replay.
From Verif Require Import StageSpec StageShape StageOut StageUntouched UntouchedSpec UntouchedProperties MultiSpec MultiProofs MultiProperties.
From Verif Require Import Server ServerLoop ServerSpec ServerProofs ServerQueue ServerReset ServerStrokes ServerProperties ServerPass.
From Verif Require Import Device DeviceSpec DeviceProofs DeviceProperties.
Import StageUntouched.
Import ListNotations.
Local Open Scope Z_scope.
Local Arguments ev0 _%N _.
Local Arguments Ev _%N _ _%N.
Local Arguments IE _%N _%N _.

(** * What is claimed *)

(** The last the keyboards reported of the key is not its release: the value is 1 when
    pressed, 2 while it repeats and 0 when released. *)
Definition key_report (k : key) (r : grabbed * ievent) : Prop :=
  ie_type (snd r) = EV_KEY /\ ie_code (snd r) = k.
Definition held_on_keyboard (k : key) (raws : list (grabbed * ievent)) : Prop :=
  exists a r b, raws = a ++ r :: b /\ key_report k r /\ ie_value (snd r) <> 0 /\ Forall (fun x => ~ key_report k x) b.

(** What the main loop hands to the server of the reports (GrabbedDevicesLinux.cpp
    575-602 and unix/main.cpp:117-124). *)
Definition keys_read (raws : list (grabbed * ievent)) : sequence :=
  flat_map (fun r => match read_key (fst r) (snd r) with
                     | Some e => if (ek e =? k_none)%N then [] else [e]
                     | None => []
                     end) raws.

(** The key is in no mapping, and no mapping waits for a release (^). *)
Definition untouched (k : key) (cs : list context) : Prop :=
  unmentioned k cs /\ question_first cs /\ no_output_on_release cs /\ wf_outputs no_none_key cs.

(** Requests once the server runs, other than of a new configuration, for the next key or
    about this key. *)
Definition ordinary (k : key) (x : step) : Prop :=
  match x with
  | SInput _ _ | SExpire | SFlush | SDevices _ => True
  | SMessage (MConfig None) | SMessage (MContexts _) => True
  | SMessage (MVirtual j _) => is_virtual_key j = true
  | SMessage (MInjectInput l) => Forall (fun e => wf_event e /\ ek e <> k) l
  | SMessage (MInjectOutput l) => Forall (fun e => ek e <> k) l
  | _ => False
  end.
Definition inputs_in (l : list step) : sequence :=
  flat_map (fun x => match x with SInput e _ => [e] | _ => [] end) l.

(** * Proof *)

Lemma conversion_type : forall g r r', read_conversion g r = Some r' ->
  ie_type r' = ie_type r /\ (ie_type r = EV_KEY -> r' = r).
Proof.
  intros g [t c v] r'. unfold read_conversion. cbn [ie_type ie_code ie_value].
  destruct (N.eqb_spec t EV_ABS) as [->|_]; [|destruct (N.eqb_spec t EV_REL) as [->|_]];
    repeat match goal with |- (if ?b then _ else _) = _ -> _ => destruct b end;
    try discriminate; try (intros [= <-]; split; [reflexivity|try discriminate; reflexivity]).
  all: destruct (map_to_range v _ _); [|discriminate]; cbn [option_map]; intros [= <-]; split; [reflexivity|discriminate].
Qed.
Lemma read_wf : forall g r e, (ie_type r = EV_KEY -> (ie_code r < 0x300)%N) -> read_key g r = Some e -> ek e <> k_none -> wf_event e.
Proof.
  intros g r e Hc. unfold read_key. destruct (read_conversion g r) as [r'|] eqn:R; [|discriminate].
  apply conversion_type in R as [T1 T2]. unfold to_key_event. rewrite T1. destruct (N.eqb_spec (ie_type r) EV_KEY) as [K|_].
  - rewrite (T2 K). intros [= <-] Hn. split; [exact Hn|]. cbn [ev0 ek es ev] in *. specialize (Hc K).
    destruct (ie_value r =? 0); [right; auto|left]. split; [reflexivity|]. split; [|auto]. intros E. rewrite E in Hc.
    discriminate Hc.
  - assert (W : forall j v, is_mouse_wheel j = true -> wf_event (Ev j Up v)).
    { intros j v W. split; [intros E; cbn [ek] in E; rewrite E in W; discriminate W|]. right. cbn [es ek ev]. auto. }
    repeat match goal with |- (if ?b then _ else _) = _ -> _ => destruct b end; try discriminate; intros [= <-] H;
      try (now destruct H); apply W; now destruct (ie_value r' <? 0).
Qed.

Lemma read_this : forall g r e, read_key g r = Some e -> (0 < ek e)%N -> is_mouse_wheel (ek e) = false ->
  ie_type r = EV_KEY /\ ie_code r = ek e /\ (es e = Down <-> ie_value r <> 0).
Proof.
  intros g r e. unfold read_key. destruct (read_conversion g r) as [r'|] eqn:R; [|discriminate].
  apply conversion_type in R as [T1 T2]. unfold to_key_event. rewrite T1. destruct (N.eqb_spec (ie_type r) EV_KEY) as [K|_].
  - rewrite (T2 K). intros [= <-] _ _. cbn [ev0 ek es].
    destruct (Z.eqb_spec (ie_value r) 0); repeat split; auto; try discriminate; contradiction.
  - repeat match goal with |- (if ?b then _ else _) = _ -> _ => destruct b end; try discriminate; intros [= <-] H H';
      try discriminate H; destruct (ie_value r' <? 0); discriminate H'.
Qed.
Lemma read_report : forall k r, (0 < k)%N -> key_report k r ->
  read_key (fst r) (snd r) = Some (ev0 k (if ie_value (snd r) =? 0 then Up else Down)).
Proof.
  intros k [g r] Hk [T C]. cbn [fst snd] in *. unfold read_key, read_conversion, to_key_event. rewrite T. cbn.
  rewrite T, C. reflexivity.
Qed.

Lemma read_after : forall k raws, (0 < k)%N -> is_mouse_wheel k = false ->
  (after false (keys_read raws) k = true <-> held_on_keyboard k raws).
Proof.
  intros k raws Hk W. induction raws as [|r raws IH] using rev_ind.
  { split; [discriminate|]. intros (a & r & b & E & _). destruct a; discriminate. }
  unfold keys_read. rewrite flat_map_app. cbn [flat_map]. rewrite app_nil_r. fold (keys_read raws). rewrite after_app.
  assert (OTHER : ~ key_report k r -> (held_on_keyboard k (raws ++ [r]) <-> held_on_keyboard k raws)).
  { intros N0. split; intros (a & x & b & E & H1 & H2 & H3).
    - destruct b as [|y b] using rev_ind.
      + apply app_inj_tail in E as [_ ->]. contradiction.
      + clear IHb. replace (a ++ x :: b ++ [y]) with ((a ++ x :: b) ++ [y]) in E by (rewrite <- app_assoc; reflexivity).
        apply app_inj_tail in E as [-> ->]. exists a, x, b. apply Forall_app in H3. tauto.
    - exists a, x, (b ++ [r]). rewrite E, <- app_assoc. split; [reflexivity|]. split; [exact H1|]. split; [exact H2|].
      apply Forall_app. auto. }
  assert (THIS : key_report k r -> (held_on_keyboard k (raws ++ [r]) <-> ie_value (snd r) <> 0)).
  { intros K. split.
    - intros (a & x & b & E & H1 & H2 & H3). destruct b as [|y b] using rev_ind.
      + apply app_inj_tail in E as [_ ->]. exact H2.
      + replace (a ++ x :: b ++ [y]) with ((a ++ x :: b) ++ [y]) in E by (rewrite <- app_assoc; reflexivity).
        apply app_inj_tail in E as [_ ->]. apply Forall_app in H3 as [_ H3]. now apply Forall_inv in H3.
    - intros V. exists raws, r, []. auto. }
  destruct (read_key (fst r) (snd r)) as [e|] eqn:Er.
  2:{ cbn [after find_last]. rewrite OTHER; [exact IH|]. intros K. rewrite (read_report k r Hk K) in Er. discriminate. }
  destruct (N.eqb_spec (ek e) k) as [E|E].
  - assert (Hz : (ek e =? k_none)%N = false) by (apply N.eqb_neq; unfold k_none; lia). rewrite Hz, after_one.
    unfold knext. rewrite E, N.eqb_refl. destruct (read_this _ _ _ Er) as (T1 & T2 & T3); [lia|congruence|].
    rewrite THIS by (split; [exact T1|congruence]). rewrite <- T3. destruct (es e); cbn; split; congruence.
  - rewrite OTHER.
    + rewrite <- IH. destruct (ek e =? k_none)%N; [reflexivity|]. rewrite after_one, next_other by exact E. reflexivity.
    + intros K. rewrite (read_report k r Hk K) in Er. injection Er as <-. now apply E.
Qed.

Lemma after_down : forall l k, after false l k = is_down_after l k.
Proof. reflexivity. Qed.

Lemma visible_after : forall k Q, (0 < k)%N -> is_virtual_key k = false -> is_action_key k = false -> is_mouse_wheel k = false -> k <> k_timeout ->
  after false (flat_map delivered_one (visible Q)) k = after false Q k.
Proof.
  intros k Q H0 HV HA HW HT. induction Q as [|e Q IH] using rev_ind; [reflexivity|].
  unfold visible. rewrite flat_map_app. cbn [flat_map]. rewrite app_nil_r, flat_map_app. fold (visible Q).
  rewrite !after_app, IH, after_one. unfold calls_for.
  destruct (N.eqb_spec (ek e) k) as [E|E].
  - rewrite E, HV, HA, HW. apply N.eqb_neq in HT. rewrite HT. cbn [andb flat_map delivered_one app]. apply after_one.
  - rewrite next_other by exact E.
    destruct (ek e =? k_timeout)%N; [reflexivity|]. destruct (is_virtual_key (ek e)); [reflexivity|].
    destruct (is_action_key (ek e)); [destruct (es e); reflexivity|]. destruct (is_mouse_wheel (ek e) && _); [reflexivity|].
    cbn [flat_map delivered_one app]. rewrite after_one. now apply next_other.
Qed.
Lemma visible_plain : forall k Q, Forall (plain_out k) Q -> Forall (stroke_of k) (flat_map delivered_one (visible Q)).
Proof.
  intros k Q H. rewrite Forall_forall in *. intros x Hx. apply in_flat_map in Hx as (y & Hy & Hx).
  apply in_flat_map in Hy as (e & He & Hy). assert (x = e) as ->; [|intros E; destruct (H e He E) as [[H1|H1] _]; auto].
  unfold calls_for in Hy. destruct (_ =? _)%N; [contradiction|]. destruct (is_virtual_key _); [contradiction|].
  destruct (is_action_key _); [destruct (es e); try contradiction; destruct Hy as [<-|[]]; contradiction|].
  destruct (_ && _); [contradiction|]. destruct Hy as [<-|[]]. now destruct Hx as [<-|[]].
Qed.

(** ** C79 *)

(** A key which no mapping mentions is held on the virtual keyboard exactly while it is
    held on the keyboard, once everything queued was sent. *)
Theorem C79_passes_through_partial : forall clock send_ok write_ok create_ok k ds cfg raws requests calls,
  (0 < k < 0x200)%N -> is_mouse_button k = false -> is_mouse_wheel k = false ->
  Forall (untouched k) cfg -> (forall n, write_ok n = true) ->
  Forall (fun r => ie_type (snd r) = EV_KEY -> (ie_code (snd r) < 0x300)%N) raws ->
  Forall (ordinary k) requests -> inputs_in requests = keys_read raws ->
  let s := server_run clock send_ok (SDevices ds :: SMessage (MConfig (Some (new_multi_stage cfg))) :: requests) init_server in
  ~ In EExit (sv_trace s) -> sv_buf s = [] ->
  sends_in calls = delivered (sv_trace s) -> Forall loop_call calls ->
  (held_on VKeyboard k (vs_log (vrun write_ok create_ok calls new_vdevices)) <-> held_on_keyboard k raws) /\
  (forall d, d <> VKeyboard -> ~ held_on d k (vs_log (vrun write_ok create_ok calls new_vdevices))).
Proof.
  intros clock send_ok wo co k ds cfg raws requests calls R NB NW U W RC F EI s NX BE ES LC.
  assert (Hk : device_button k).
  { assert (A : (k < 0x200)%N) by apply R. repeat split; try exact NW; try (intros ->; discriminate A); try (intros ->; discriminate (proj1 R)).
    unfold is_virtual_key, in_range. destruct (N.leb_spec first_virtual k); [|reflexivity]. unfold first_virtual in *. lia. }
  assert (HA : is_action_key k = false).
  { unfold is_action_key, in_range. destruct (N.leb_spec first_action k); [|reflexivity]. unfold first_action in *. lia. }
  assert (U' : Forall (fun cs => kept k cs /\ wf_outputs no_none_key cs) cfg).
  { eapply Forall_impl; [|exact U]. intros cs (A & B & C & D). split; [split; [exact A|split; [exact B|exact C]]|exact D]. }
  set (s0 := server_run clock send_ok [SDevices ds; SMessage (MConfig (Some (new_multi_stage cfg)))] init_server).
  assert (ER : s = server_run clock send_ok requests s0) by reflexivity.
  assert (FL : Forall (leaves k) requests).
  { assert (WI : Forall wf_event (inputs_in requests)).
    { rewrite EI. unfold keys_read. rewrite Forall_flat_map. eapply Forall_impl; [|exact RC]. intros [g r] Hr. cbn [fst snd] in *.
      destruct (read_key g r) as [e|] eqn:Er; [|constructor]. destruct (N.eqb_spec (ek e) k_none) as [E|E]; [constructor|].
      constructor; [|constructor]. eapply read_wf; eauto. }
    clear -F WI. induction requests as [|x l IH]; [constructor|]. pose proof (Forall_inv F) as Hx. apply Forall_inv_tail in F.
    unfold inputs_in in WI. cbn [flat_map] in WI. apply Forall_app in WI as [W1 W2]. constructor; [|now apply IH].
    destruct x as [e dev| | |d|[[m|]|l'|j st|f| |l'|l']| ]; cbn in *; auto. now apply Forall_inv in W1. }
  assert (NX0 : ~ In EExit (sv_trace s0)).
  { intros X. apply NX. rewrite ER. clear -FL X Hk HA. generalize dependent s0. induction requests as [|x l IH]; intros s0 X; [exact X|].
    cbn [server_run]. apply IH; [now apply Forall_inv_tail in FL|].
    apply (proj1 (pass_step k Hk HA clock send_ok x s0 (Forall_inv FL))). exact X. }
  pose proof (pass_start k Hk HA clock send_ok ds cfg U' NX0) as P0.
  rewrite ER in NX, BE, ES.
  pose proof (pass_run k Hk HA clock send_ok requests s0 false FL P0 NX) as P.
  destruct (queue_order clock send_ok (SDevices ds :: SMessage (MConfig (Some (new_multi_stage cfg))) :: requests) init_server eq_refl init_qinv)
    as (pre & Q1 & Q2). change (server_run clock send_ok (SDevices ds :: _ :: requests) init_server) with (server_run clock send_ok requests s0) in Q1, Q2.
  rewrite BE, app_nil_r in Q1. subst pre.
  assert (DV : delivered (sv_trace (server_run clock send_ok requests s0)) =
    flat_map delivered_one (visible (queued (sv_trace (server_run clock send_ok requests s0))))) by (rewrite delivered_done, Q2; reflexivity).
  assert (EV : after false (sends_in calls) k = after false (keys_read raws) k).
  { rewrite ES, DV, visible_after; auto; [|apply R|apply Hk|apply Hk]. rewrite (pa_queue _ _ _ P), <- EI. f_equal. }
  assert (F2 : Forall (stroke_call k) calls).
  { pose proof (visible_plain k _ (pa_plain _ _ _ P)) as D. rewrite <- DV, <- ES in D.
    clear -D. induction calls as [|c l IH]; [constructor|]. unfold sends_in in D. cbn [flat_map] in D. apply Forall_app in D.
    destruct D as [D1 D2]. constructor; [|auto]. destruct c; try exact Logic.I. now apply Forall_inv in D1. }
  destruct (C74_keys_partial wo co k calls W R NB NW LC F2) as [H1 H2].
  split; [|exact H2]. rewrite H1, <- (read_after k raws (proj1 R) NW), <- EV.
  assert (Q : holds k calls = after false (sends_in calls) k).
  { clear. induction calls as [|c l IH] using rev_ind; [reflexivity|]. rewrite holds_snoc. unfold sends_in. rewrite flat_map_app.
    fold (sends_in l). cbn [flat_map]. destruct c; rewrite ?app_nil_r; try exact IH.
    rewrite after_app, after_one. unfold knext. rewrite IH. reflexivity. }
  rewrite Q. reflexivity.
Qed.
Print Assumptions C79_passes_through_partial.

(** B is pressed and repeats while the mapped A is typed, a virtual key is toggled and
    a wheel is turned; then it is released. *)
Definition board : grabbed := G default_abs_range default_abs_range false.
Definition reports : list (grabbed * ievent) :=
  map (pair board) [IE EV_KEY 30 1; IE 0 0 0; IE EV_KEY 48 1; IE EV_KEY 30 0; IE EV_KEY 48 2; IE EV_REL REL_WHEEL (-1); IE EV_KEY 48 2].
Definition both_stages : string := "A >> X Y
[stage]
X{Z} >> C".
Definition handled (raws : list (grabbed * ievent)) : list step :=
  activate both_stages :: map (fun e => SInput e 0) (keys_read raws) ++ [SMessage (MVirtual first_virtual Down); SFlush].
Definition ran (raws : list (grabbed * ievent)) : server :=
  server_run ms_clock sends
    (SDevices [] :: SMessage (MConfig (Some (new_multi_stage (load_multi both_stages)))) :: handled raws) init_server.
Example C79_case :
  let more := reports ++ [(board, IE EV_KEY 48 0)] in
  Forall (untouched 48%N) (load_multi both_stages) /\
  Forall (fun r => ie_type (snd r) = EV_KEY -> (ie_code (snd r) < 0x300)%N) more /\
  Forall (ordinary 48%N) (handled more) /\ inputs_in (handled more) = keys_read more /\
  ~ In EExit (sv_trace (ran more)) /\ sv_buf (ran more) = [] /\
  ~ In EExit (sv_trace (ran reports)) /\ sv_buf (ran reports) = [] /\
  List.length (delivered (sv_trace (ran reports))) = 8%nat /\
  held_on VKeyboard 48%N (told (map VSend (delivered (sv_trace (ran reports))))) /\
  ~ held_on VKeyboard 48%N (told (map VSend (delivered (sv_trace (ran more))))).
Proof.
  cbn zeta. split.
  { unfold both_stages. set (cfg := load_multi _). vm_compute in cfg. subst cfg.
    repeat (constructor; [split; [apply unmentioned_dec; vm_compute; reflexivity|
      split; [apply question_first_dec; vm_compute; reflexivity|
      split; [apply no_output_on_release_dec; vm_compute; reflexivity|]]];
      repeat (constructor; [split; repeat (constructor; [repeat (constructor; [split; [left; discriminate|left; reflexivity]|]); constructor|]); constructor|]); constructor|]). constructor. }
  split; [vm_compute; repeat (constructor; [intros; reflexivity || discriminate|]); constructor|].
  split; [vm_compute; repeat (constructor; [exact Logic.I || reflexivity|]); constructor|].
  split; [vm_compute; reflexivity|].
  split; [vm_compute; intros H; repeat destruct H as [H|H]; try discriminate; exact H|].
  split; [vm_compute; reflexivity|].
  split; [vm_compute; intros H; repeat destruct H as [H|H]; try discriminate; exact H|].
  split; [vm_compute; reflexivity|]. split; [vm_compute; reflexivity|]. split; [vm_compute; reflexivity|].
  vm_compute. discriminate.
Qed.

(** Missing: a new configuration, which releases all keys; the key is pressed again only
    by its next repeat.  Also a request for the next key, which takes the press away. *)
Definition asked_while_held (m : message) (raws : list (grabbed * ievent)) : server :=
  server_run ms_clock sends
    (SDevices [] :: configure both_stages :: activate both_stages ::
     map (fun e => SInput e 0) (keys_read raws) ++ [SMessage m; SFlush]) init_server.
Theorem C79_reload_refuted : exists raws m,
  let s := asked_while_held (MConfig (Some m)) raws in
  m = new_multi_stage (load_multi both_stages) /\ ~ In EExit (sv_trace s) /\ sv_buf s = [] /\ held_on_keyboard 48%N raws /\
  ~ held_on VKeyboard 48%N (told (map VSend (delivered (sv_trace s)))).
Proof.
  exists [(board, IE EV_KEY 48 1)], (new_multi_stage (load_multi both_stages)). cbn zeta.
  split; [reflexivity|]. split; [vm_compute; intros H; repeat destruct H as [H|H]; try discriminate; exact H|].
  split; [vm_compute; reflexivity|]. split.
  - exists [], (board, IE EV_KEY 48 1), []. split; [reflexivity|]. split; [split; reflexivity|]. split; [discriminate|constructor].
  - vm_compute. discriminate.
Qed.
Print Assumptions C79_reload_refuted.
Theorem C79_next_key_refuted : exists raws,
  let s := server_run ms_clock sends
    (SDevices [] :: configure both_stages :: SMessage MNextKey :: map (fun e => SInput e 0) (keys_read raws) ++ [SFlush]) init_server in
  ~ In EExit (sv_trace s) /\ sv_buf s = [] /\ held_on_keyboard 48%N raws /\
  ~ held_on VKeyboard 48%N (told (map VSend (delivered (sv_trace s)))).
Proof.
  exists [(board, IE EV_KEY 48 1)]. cbn zeta.
  split; [vm_compute; intros H; repeat destruct H as [H|H]; try discriminate; exact H|].
  split; [vm_compute; reflexivity|]. split.
  - exists [], (board, IE EV_KEY 48 1), []. split; [reflexivity|]. split; [split; reflexivity|]. split; [discriminate|constructor].
  - vm_compute. discriminate.
Qed.
Print Assumptions C79_next_key_refuted.
