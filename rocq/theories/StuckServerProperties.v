(** C13 for several stages, the server and the virtual keyboard: nothing stays pressed
    when every key is released. *)
From Coq Require Import String List Arith NArith ZArith Bool Lia SpecFloat.
From Verif Require Import Base Key Match Stage Text ParseSeq Config MultiStage Replay.
From Verif Require Import StageSpec StageShape StageOut StageProperties MultiSpec MultiProofs MultiProperties.
From Verif Require Import Server ServerLoop ServerSpec ServerProofs ServerQueue ServerReset ServerStrokes ServerProperties.
From Verif Require Import Device DeviceSpec DeviceProofs DeviceProperties ServerPass ThroughProperties.
From Verif Require Import StuckSpec StuckProperties StuckStagesSpec StuckStages StuckServerSpec ServerStuck.
From Verif Require Import StageUntouched.
Import StageUntouched.
Import ListNotations.
Local Open Scope N_scope.

(** * Several stages *)

(** Calls with keys of [K] which are no actions; no validation of the keys which are down. *)
Definition keys_called (K : key -> Prop) (c : mcall) : Prop :=
  match c with
  | MInput e _ => wf_event e /\ K (ek e) /\ is_action_key (ek e) = false
  | MultiSpec.MValidate _ => False
  | _ => True
  end.
Definition inputs_called (l : list mcall) : sequence :=
  flat_map (fun c => match c with MInput e _ => [e] | _ => [] end) l.

Lemma find_last_some : forall (f : event -> bool) l e, find_last f l = Some e -> In e l /\ f e = true.
Proof.
  intros f. induction l as [|x l IH]; intros e H; [discriminate|]. cbn [find_last] in H.
  destruct (find_last f l) as [y|]; [injection H as ->; destruct (IH e eq_refl); split; [right; assumption|assumption]|].
  destruct (f x) eqn:E; [|discriminate]. injection H as ->. split; [left; reflexivity|exact E].
Qed.
Lemma stages_chain : forall (K : key -> Prop) l I m out, (forall k, K k -> feedable k) -> K k_timeout -> Forall (keys_called K) l ->
  mchain K I m out -> mchain K (I ++ inputs_called l) (fst (mrun l m)) (out ++ snd (mrun l m)).
Proof.
  intros K l. induction l as [|c l IH]; intros I m out KF KT F H; cbn [mrun inputs_called flat_map].
  { rewrite !app_nil_r. exact H. }
  pose proof (Forall_inv F) as Hc. apply Forall_inv_tail in F.
  assert (G : mchain K (I ++ match c with MInput e _ => [e] | _ => [] end) (fst (do_mcall c m)) (out ++ snd (do_mcall c m))).
  { destruct c as [e dev|il|f|ds]; cbn [do_mcall keys_called] in *.
    - destruct Hc as (H1 & H2 & H3). pose proof (proj1 (mchain_update K e dev I m out KF H1 KT H2 H3 H)) as G.
      destruct (m_update e dev m) as [m' o]. exact G.
    - rewrite app_nil_r. pose proof (proj1 (mchain_contexts K il I m out KT H)) as G.
      destruct (m_set_active_client_contexts il m) as [m' o]. exact G.
    - contradiction.
    - cbn [fst snd]. rewrite !app_nil_r. now apply mchain_devices. }
  destruct (do_mcall c m) as [m1 o1]. cbn [fst snd] in G. specialize (IH _ _ _ KF KT F G).
  destruct (mrun l m1) as [m2 o2]. cbn [fst snd] in *. rewrite <- !app_assoc in IH. exact IH.
Qed.

(** Whatever is pressed in the output of the last stage, some key which was fed to the
    first stage is still pressed.  Missing from the full claim, as for one stage: inputs
    with Any, with `?`, with ContextActive or completed by a timeout; mappings which
    output just the event completing them; mouse wheels. *)
Theorem C13_stages_partial : forall (K : key -> Prop) cfg l k,
  (forall k, K k -> feedable k) -> K k_timeout -> unstuck_stages K cfg -> Forall (keys_called K) l ->
  is_device_key k = true -> is_down_after (snd (mrun l (new_multi_stage cfg))) k = true ->
  exists j, is_down_after (inputs_called l) j = true.
Proof.
  intros K cfg l k KF KT U F Hk Hd. pose proof (stages_chain K l [] _ [] KF KT F (mchain_init K cfg U)) as H.
  exact (mchain_held _ _ _ _ k H (device_not_server k Hk) Hd).
Qed.
Print Assumptions C13_stages_partial.

(** * The server *)

(** Whatever the queue of the server leaves pressed, some key which was input is still
    pressed or some virtual key is on.  Configurations may be replaced, clients may
    come and go, delays, timeouts and failing writes may happen. *)
Theorem C13_server_partial : forall clock send_ok (K : key -> Prop) inputs s k,
  (forall k, K k -> feedable k) -> K k_timeout -> (forall k, is_virtual_key k = true -> K k) ->
  runs clock send_ok K inputs s -> ~ In EExit (sv_trace s) ->
  is_device_key k = true -> is_down_after (queued (sv_trace s)) k = true ->
  (exists j, is_down_after inputs j = true) \/ (exists j, In j (sv_virtual s)).
Proof. intros clock send_ok K I s k KF KT KV. apply (runs_held K KF KT KV clock send_ok I s k). Qed.
Print Assumptions C13_server_partial.

(** So once the queue was sent, the keyboards are released and no virtual key is on,
    everything which was sent is released. *)
Lemma runs_qinv : forall clock send_ok (K : key -> Prop) I s, runs clock send_ok K I s -> sv_sending s = false /\ qinv (None, s).
Proof.
  intros clock send_ok K I s H. induction H as [ds cfg H0 U|I s x H [I1 I2] Hx|I s cfg H [I1 I2] Hv H0 U|I s cfg H [I1 I2] Hv H0 U]; cbn [server_run].
  - split; [now repeat apply step_sending|]. apply step_qinv; [now apply step_sending|]. apply step_qinv; [reflexivity|apply init_qinv].
  - split; [now apply step_sending|now apply step_qinv].
  - split; [now apply step_sending|now apply step_qinv].
  - split; [now repeat apply step_sending|]. apply step_qinv; [now apply step_sending|now apply step_qinv].
Qed.
Theorem C13_sent_partial : forall clock send_ok (K : key -> Prop) inputs s,
  (forall k, K k -> feedable k) -> K k_timeout -> (forall k, is_virtual_key k = true -> K k) ->
  runs clock send_ok K inputs s -> ~ In EExit (sv_trace s) -> sv_buf s = [] ->
  (forall j, is_down_after inputs j = false) -> sv_virtual s = [] ->
  released (delivered (sv_trace s)).
Proof.
  intros clock send_ok K I s KF KT KV H NX BE U V. destruct (runs_qinv _ _ _ _ _ H) as [_ Q].
  apply emptied; [exact Q| |exact BE]. intros k Hk. destruct (is_down_after (queued (sv_trace s)) k) eqn:E; [exfalso|reflexivity].
  destruct (C13_server_partial _ _ K I s k KF KT KV H NX Hk E) as [[j Hj]|[j Hj]]; [rewrite U in Hj; discriminate|].
  rewrite V in Hj. exact Hj.
Qed.
Print Assumptions C13_sent_partial.

(** * From the keyboards to the virtual keyboard *)

Lemma runs_ok : forall clock send_ok (K : key -> Prop) I s,
  (forall k, K k -> feedable k) -> K k_timeout -> (forall k, is_virtual_key k = true -> K k) ->
  runs clock send_ok K I s -> ~ In EExit (sv_trace s) -> Forall (ok_out any_key) (queued (sv_trace s)).
Proof.
  intros clock send_ok K I s KF KT KV H NX. destruct (runs_inv K KF KT KV clock send_ok I s H) as [_ [X|[_ X]]]; [contradiction|].
  exact (srv_ok K _ _ X).
Qed.
Lemma runs_keys : forall clock send_ok (K : key -> Prop) I s, runs clock send_ok K I s -> Forall (device_event K) I.
Proof.
  intros clock send_ok K I s H. induction H as [ds cfg H0 U|I s x H IH Hx|I s cfg H IH Hv H0 U|I s cfg H IH Hv H0 U]; auto.
  apply Forall_app. split; [exact IH|]. destruct x as [e dev| | |ds|[[m|]|l|j st|f| |l|l]| ]; cbn in *; auto.
  apply Forall_forall. intros e He. apply filter_In in He as [He E]. rewrite Forall_forall in Hx. auto.
Qed.

(** When a key is held on the virtual keyboard and everything queued was sent, a key is
    held on the keyboards or a virtual key is on. *)
Theorem C13_keyboard_partial : forall clock send_ok write_ok create_ok (K : key -> Prop) raws s calls k,
  (forall k, K k -> feedable k) -> K k_timeout -> (forall k, is_virtual_key k = true -> K k) ->
  runs clock send_ok K (keys_read raws) s -> ~ In EExit (sv_trace s) -> sv_buf s = [] ->
  (forall n, write_ok n = true) -> sends_in calls = delivered (sv_trace s) -> Forall loop_call calls ->
  0 < k < 0x200 -> is_mouse_button k = false -> is_mouse_wheel k = false ->
  held_on VKeyboard k (vs_log (vrun write_ok create_ok calls new_vdevices)) ->
  (exists j, held_on_keyboard j raws) \/ (exists j, In j (sv_virtual s)).
Proof.
  intros clock send_ok wo co K raws s calls k KF KT KV H NX BE W ES LC R NB NW HH.
  destruct (runs_qinv _ _ _ _ _ H) as [_ (_ & pre & Q1 & Q2)]. cbn [cursor skipn] in Q1. rewrite BE, app_nil_r in Q1. subst pre.
  assert (DV : delivered (sv_trace s) = flat_map delivered_one (visible (queued (sv_trace s)))) by (rewrite delivered_done, Q2; reflexivity).
  pose proof (runs_ok _ _ _ _ _ KF KT KV H NX) as OK.
  assert (KD : is_device_key k = true).
  { unfold is_device_key, is_keyboard_key. rewrite NB, NW. cbn [negb]. rewrite !orb_false_r, !andb_true_r.
    apply andb_true_intro. split; [apply N.ltb_lt; apply R|apply N.leb_le]. destruct R as [_ R]. apply N.lt_le_incl.
    eapply N.lt_le_trans; [exact R|]. intros X. discriminate X. }
  pose proof (device_not_server k KD) as SK. unfold server_key in SK. apply orb_false_iff in SK as [SK S3]. apply orb_false_iff in SK as [S1 S2].
  apply N.eqb_neq in S1.
  assert (F2 : Forall (stroke_call k) calls).
  { assert (P : Forall (plain_out k) (queued (sv_trace s))).
    { eapply Forall_impl; [|exact OK]. intros e (_ & E1 & E2) E. split.
      - destruct E1 as [E1|[E1|E1]]; auto. congruence.
      - destruct E2 as [E2|[E2|[E2 _]]]; [exact E2|congruence|congruence]. }
    pose proof (visible_plain k _ P) as D. rewrite <- DV, <- ES in D.
    clear -D. induction calls as [|c l IH]; [constructor|]. unfold sends_in in D. cbn [flat_map] in D. apply Forall_app in D.
    destruct D as [D1 D2]. constructor; [|auto]. destruct c; try exact Logic.I. now apply Forall_inv in D1. }
  destruct (C74_keys_partial wo co k calls W R NB NW LC F2) as [H1 _]. apply H1 in HH.
  assert (Q : holds k calls = after false (sends_in calls) k).
  { clear. induction calls as [|c l IH] using rev_ind; [reflexivity|]. rewrite holds_snoc. unfold sends_in. rewrite flat_map_app.
    fold (sends_in l). cbn [flat_map]. destruct c; rewrite ?app_nil_r; try exact IH.
    rewrite after_app, after_one. unfold knext. rewrite IH. reflexivity. }
  rewrite Q, ES, DV, visible_after in HH; auto; [|apply R].
  destruct (C13_server_partial _ _ K _ s k KF KT KV H NX KD HH) as [[j Hj]|Hj]; [left|right; exact Hj].
  exists j. apply read_after; [| |exact Hj].
  - destruct (N.eq_0_gt_0_cases j) as [->|X]; [exfalso|exact X]. pose proof (runs_keys _ _ _ _ _ H) as F.
    unfold is_down_after in Hj. destruct (find_last (has_key 0) (keys_read raws)) as [e|] eqn:E; [|discriminate].
    apply find_last_some in E as [E1 E2]. rewrite Forall_forall in F. destruct (F e E1) as (_ & X & _). apply KF in X.
    apply N.eqb_eq in E2. rewrite E2 in X. now destruct X.
  - pose proof (runs_keys _ _ _ _ _ H) as F.
    unfold is_down_after in Hj. destruct (find_last (has_key j) (keys_read raws)) as [e|] eqn:E; [|discriminate].
    apply find_last_some in E as [E1 E2]. rewrite Forall_forall in F. destruct (F e E1) as (_ & X & _). apply KF in X.
    apply N.eqb_eq in E2. rewrite E2 in X. apply X.
Qed.
Print Assumptions C13_keyboard_partial.

(** * Cases *)

Definition feedableb (k : key) : bool :=
  negb (k =? k_none) && negb (k =? k_any) && negb (k =? k_ContextActive) && negb (is_mouse_wheel k).
Lemma feedable_dec : forall k, feedableb k = true -> feedable k.
Proof.
  intros k H. unfold feedableb in H. repeat (apply andb_prop in H as [H ?]). unfold feedable.
  repeat match goal with X : negb _ = true |- _ => apply negb_true_iff in X end.
  repeat match goal with X : (_ =? _) = false |- _ => apply N.eqb_neq in X end. auto.
Qed.
Definition out_eventb (e : event) : bool := negb (ek e =? k_none) && ((ev e =? 0) || (ek e =? k_timeout)).
Definition outs (cs : list context) : list sequence := flat_map (fun c => cx_outputs c ++ map cm_out (cx_commands c)) cs.
Definition single_press (o : sequence) : bool := match o with [e] => kstate_eqb (es e) Down | _ => false end.
(** Decides [unstuck] for any keys. *)
Definition unstuckb (cs : list context) : bool :=
  forallb (forallb out_eventb) (outs cs) &&
  forallb (fun c => forallb (balancedb []) (cx_outputs c) && forallb (fun m => balancedb [] (cm_out m)) (cx_commands c)) cs &&
  forallb (fun c => forallb (fun i => plain_inputb (in_seq i)) (cx_inputs c)) cs &&
  forallb (fun c => forallb (fun i => no_context_activeb (in_seq i)) (cx_inputs c)) cs &&
  no_own_keyb cs [] &&
  (forallb (fun c => forallb (fun i => forallb (fun e => negb (ek e =? k_timeout)) (in_seq i)) (cx_inputs c)) cs
   || forallb (fun o => negb (single_press o)) (outs cs)).
Lemma unstuck_dec : forall (K : key -> Prop) cs, (forall k, K k -> feedable k) -> unstuckb cs = true -> unstuck K cs.
Proof.
  intros K cs KF H. unfold unstuckb in H. apply andb_prop in H as [H H6]. apply andb_prop in H as [H H5].
  apply andb_prop in H as [H H4]. apply andb_prop in H as [H H3]. apply andb_prop in H as [H1 H2].
  assert (HO : forall c o, In c cs -> In o (cx_outputs c) \/ (exists m, In m (cx_commands c) /\ cm_out m = o) -> In o (outs cs)).
  { intros c o Hc Ho. apply in_flat_map. exists c. split; [exact Hc|]. apply in_or_app. destruct Ho as [Ho|(m & Hm & <-)]; [auto|].
    right. now apply in_map. }
  constructor.
  - exact KF.
  - rewrite forallb_forall in H1.
    assert (HE : forall o e, In o (outs cs) -> In e o -> wf_out no_none_key e).
    { intros o e Ho He. specialize (H1 o Ho). rewrite forallb_forall in H1. specialize (H1 e He). apply andb_prop in H1 as [E1 E2].
      apply negb_true_iff, N.eqb_neq in E1. split; [left; exact E1|].
      apply orb_prop in E2 as [E2|E2]; apply N.eqb_eq in E2; auto. }
    apply Forall_forall. intros c Hc. split; apply Forall_forall.
    + intros o Ho. apply Forall_forall. intros e He. eapply HE; [|exact He]. eapply HO; eauto.
    + intros m Hm. apply Forall_forall. intros e He. eapply HE; [|exact He]. eapply HO; eauto.
  - apply balanced_config_dec. exact H2.
  - apply (all_inputs_dec _ plain_inputb _ plain_input_dec). exact H3.
  - apply (all_inputs_dec _ no_context_activeb _ no_context_active_dec). exact H4.
  - intros c i o Hc Hg. pose proof (no_own_key_dec cs [] H5 c i o Hc Hg) as [N1 _]. split; [exact N1|].
    apply orb_prop in H6 as [H6|H6].
    + left. apply (all_inputs_dec timeless (fun l => forallb (fun e => negb (ek e =? k_timeout)) l)); [|exact H6].
      intros l Hl. apply Forall_forall. intros e He. rewrite forallb_forall in Hl. specialize (Hl e He).
      apply negb_true_iff in Hl. apply N.eqb_neq; exact Hl.
    + right. intros k _ E. rewrite forallb_forall in H6.
      assert (Ho : In o (outs cs)).
      { destruct Hg as [_ [[_ Hn]|[_ (c' & m & G1 & G2 & _ & G3)]]].
        - apply (HO c); [exact Hc|left]. eapply nth_error_In; exact Hn.
        - apply (HO c'); [exact G1|right]. eauto. }
      specialize (H6 o Ho). rewrite E in H6. discriminate.
Qed.
(** Outputs which later stages may be fed. *)
Definition passesb (cs : list context) : bool :=
  forallb (forallb (fun e => kstate_eqb (es e) OutputOnRelease || feedableb (ek e))) (outs cs).
Lemma stages_dec : forall cfg (K : key -> Prop), (forall k, K k -> feedable k) ->
  forallb unstuckb cfg = true -> forallb passesb cfg = true -> unstuck_stages K cfg.
Proof.
  induction cfg as [|cs r IH]; intros K KF H P; cbn [unstuck_stages forallb] in *; [exact Logic.I|].
  apply andb_prop in H as [H1 H2]. apply andb_prop in P as [P1 P2]. split; [now apply unstuck_dec|]. apply IH; auto.
  intros k [Hk|(cs' & c & e & [<-|[]] & Hc & <- & Es & He)]; [auto|]. apply feedable_dec.
  unfold passesb in P1. rewrite forallb_forall in P1.
  assert (Ho : exists o, In o (outs cs) /\ In e o).
  { destruct He as [(o & Ho & He)|(m & Hm & He)]; [exists o|exists (cm_out m)]; (split; [|exact He]);
      apply in_flat_map; exists c; (split; [exact Hc|]); apply in_or_app; [left; exact Ho|right; now apply in_map]. }
  destruct Ho as (o & Ho & Hi). specialize (P1 o Ho). rewrite forallb_forall in P1. specialize (P1 e Hi).
  apply orb_prop in P1 as [P1|P1]; [|exact P1]. destruct (es e); try discriminate. now destruct Es.
Qed.

(** Three stages with a chord, a sequence, a virtual key, a delay and a timeout. *)
Definition three_stages : string := "(A B) >> X Virtual1
C D >> 5ms Y
Virtual1{E} >> Z
[stage]
X Y >> M
Z >> N
[stage]
F{500ms} G >> U V".
Definition pressed_all : list mcall :=
  multi_calls (load_multi three_stages) "+A +B +C +D +F -B +E +G".
Lemma feedable_time : feedable k_timeout.
Proof. repeat split; discriminate. Qed.
Lemma feedable_virtual : forall k, is_virtual_key k = true -> feedable k.
Proof. intros k H. repeat split; try (intros ->; discriminate H). destruct (is_mouse_wheel k) eqn:E; [|reflexivity].
  assert (D : is_device_key k = true) by (unfold is_device_key; rewrite E; apply orb_true_r).
  apply device_not_server in D. unfold server_key in D. rewrite H, orb_true_r in D. discriminate.
Qed.
Definition keys_calledb (c : mcall) : bool :=
  match c with
  | MInput e dev => wf_callb 0 (CInput e 0) && feedableb (ek e) && negb (is_action_key (ek e))
  | MultiSpec.MValidate _ => false
  | _ => true
  end.
Lemma event_dec : forall e, wf_callb 0 (CInput e 0) = true -> wf_event e.
Proof.
  intros e H. assert (F : Forall (wf_call []) [CInput e 0]).
  { apply wf_call_dec. cbn [forallb length]. rewrite H. reflexivity. }
  apply (Forall_inv F).
Qed.
Lemma keys_called_dec : forall l, forallb keys_calledb l = true -> Forall (keys_called feedable) l.
Proof.
  intros l H. apply Forall_forall. intros c Hc. rewrite forallb_forall in H. specialize (H c Hc).
  destruct c as [e dev|il|f|ds]; try exact Logic.I; [|discriminate]. cbn [keys_calledb keys_called] in *.
  apply andb_prop in H as [H H3]. apply andb_prop in H as [H1 H2]. split; [now apply event_dec|].
  split; [now apply feedable_dec|]. now apply negb_true_iff in H3.
Qed.
Example C13_stages_case :
  let cfg := load_multi three_stages in
  unstuck_stages feedable cfg /\ Forall (keys_called feedable) pressed_all /\
  fmt (snd (mrun pressed_all (new_multi_stage cfg))) = "+Virtual1 -Virtual1 +5ms +M -500ms +F +E +G"%string.
Proof.
  cbn zeta. split; [apply stages_dec; [auto|vm_compute; reflexivity|vm_compute; reflexivity]|].
  split; [apply keys_called_dec; vm_compute; reflexivity|vm_compute; reflexivity].
Qed.

(** A chord turns a virtual key on, a sequence is put out after a delay, the configuration
    is loaded again while keys are held, another client connects, and keys and a virtual
    key are used with it until all are released. *)
Definition pause : list step := [SFlush; SFlush; SFlush].
Definition first_part : list step :=
  activate three_stages :: typed "+A +B -B +C +D" ++ pause.
Definition second_part : list step :=
  activate three_stages :: typed "-A -C" ++ SMessage (MVirtual 0xF101 Down) :: SMessage MNextKey :: typed "+Q +E -D" ++ pause.
Definition third_part : list step :=
  activate three_stages :: SMessage (MInjectInput [ev0 30 Down; ev0 48 Down; ev0 30 Up; ev0 48 Up]) ::
  SMessage (MInjectOutput [ev0 45 Down; ev0 45 Up]) :: pause ++ typed "+F" ++ SExpire :: typed "+G +E" ++ pause.
Definition last_part : list step := typed "-F -Q -G -E" ++ SMessage (MVirtual 0xF101 Up) :: pause.
Definition the_stages : step := loads (load_multi three_stages).
Definition at_first : server := server_run ms_clock sends first_part (server_run ms_clock sends [SDevices []; the_stages] init_server).
Definition at_second : server := server_run ms_clock sends second_part (server_step ms_clock sends the_stages at_first).
Definition reloading (last : list step) : server :=
  server_run ms_clock sends last (server_run ms_clock sends third_part (server_run ms_clock sends [SReset; the_stages] at_second)).

Definition harmlessb (x : step) : bool :=
  let dev e := wf_callb 0 (CInput e 0) && feedableb (ek e) && negb (is_action_key (ek e)) && negb (is_virtual_key (ek e)) && negb (ek e =? k_timeout) in
  match x with
  | SInput e _ => dev e
  | SExpire | SFlush | SDevices _ => true
  | SMessage (MConfig None) | SMessage (MContexts _) | SMessage MNextKey => true
  | SMessage (MVirtual j _) => is_virtual_key j
  | SMessage (MInjectInput l) => forallb dev l
  | SMessage (MInjectOutput l) =>
      forallb (fun k => negb (is_down_after l k)) (map ek l) && forallb (fun e => (kstate_eqb (es e) Down || kstate_eqb (es e) Up) && (ev e =? 0)) l
  | SMessage (MConfig (Some _)) | SMessage (MValidate _) | SReset => false
  end.
Lemma harmless_dec : forall l, forallb harmlessb l = true -> Forall (harmless feedable) l.
Proof.
  intros l H. apply Forall_forall. intros x Hx. rewrite forallb_forall in H. specialize (H x Hx).
  assert (G : forall e, wf_callb 0 (CInput e 0) && feedableb (ek e) && negb (is_action_key (ek e)) && negb (is_virtual_key (ek e)) && negb (ek e =? k_timeout) = true ->
    device_event feedable e).
  { intros e E. do 4 (apply andb_prop in E as [E ?]). repeat match goal with X : negb _ = true |- _ => apply negb_true_iff in X end.
    split; [now apply event_dec|]. split; [now apply feedable_dec|]. split; [assumption|]. split; [assumption|]. now apply N.eqb_neq. }
  destruct x as [e dev| | |ds|[[m|]|il|j st|f| |il|il]| ]; cbn [harmlessb harmless] in *; auto; try discriminate.
  - apply Forall_forall. intros e He _. rewrite forallb_forall in H. auto.
  - apply andb_prop in H as [H1 H2]. split; [intros k _; now apply all_up_dec|]. apply Forall_forall. intros e He.
    rewrite forallb_forall in H2. specialize (H2 e He). apply andb_prop in H2 as [H2 H3]. apply N.eqb_eq in H3.
    split; [exact Logic.I|]. split; [|auto]. destruct (es e); try discriminate; auto.
Qed.
Lemma runs_steps : forall clock send_ok (K : key -> Prop) l I s, Forall (harmless K) l -> runs clock send_ok K I s ->
  runs clock send_ok K (I ++ flat_map keys_in l) (server_run clock send_ok l s).
Proof.
  intros clock send_ok K. induction l as [|x l IH]; intros I s F H; cbn [server_run flat_map]; [now rewrite app_nil_r|].
  rewrite app_assoc. apply IH; [now apply Forall_inv_tail in F|]. apply ru_step; [exact H|]. apply (Forall_inv F).
Qed.
Definition no_virtualb (l : sequence) : bool := forallb (fun e => negb (is_virtual_key (ek e) && kstate_eqb (es e) Down)) l.
Lemma no_virtual_dec : forall l, no_virtualb l = true -> no_virtual l.
Proof.
  intros l H. apply Forall_forall. intros e He V X. unfold no_virtualb in H. rewrite forallb_forall in H. specialize (H e He).
  rewrite V, X in H. discriminate.
Qed.
Definition inputs_of_parts (last : list step) : sequence :=
  flat_map keys_in first_part ++ flat_map keys_in second_part ++ flat_map keys_in third_part ++ flat_map keys_in last.
Lemma three_stages_ok : load_multi three_stages <> [] /\ unstuck_stages feedable (load_multi three_stages).
Proof. split; [vm_compute; discriminate|]. apply stages_dec; [auto|vm_compute; reflexivity|vm_compute; reflexivity]. Qed.
Local Opaque server_run server_step.
Lemma reloading_runs : forall last, Forall (harmless feedable) last -> runs ms_clock sends feedable (inputs_of_parts last) (reloading last).
Proof.
  intros last F. destruct three_stages_ok as [N0 U].
  assert (R1 : runs ms_clock sends feedable (flat_map keys_in first_part) at_first).
  { refine (runs_steps _ _ _ first_part [] _ _ (ru_start _ _ _ _ _ N0 U)). apply harmless_dec. vm_compute. reflexivity. }
  assert (R2 : runs ms_clock sends feedable (flat_map keys_in first_part ++ flat_map keys_in second_part) at_second).
  { refine (runs_steps _ _ _ second_part _ _ _ (ru_config _ _ _ _ _ _ R1 _ N0 U)); [apply harmless_dec|apply no_virtual_dec]; vm_compute; reflexivity. }
  unfold inputs_of_parts. rewrite !app_assoc. refine (runs_steps _ _ _ last _ _ F _).
  refine (runs_steps _ _ _ third_part _ _ _ (ru_client _ _ _ _ _ _ R2 _ N0 U)); [apply harmless_dec|apply no_virtual_dec]; vm_compute; reflexivity.
Qed.
Local Transparent server_run server_step.
Example C13_server_case :
  (forall k, feedable k -> feedable k) /\ feedable k_timeout /\ (forall k, is_virtual_key k = true -> feedable k) /\
  runs ms_clock sends feedable (inputs_of_parts []) (reloading []) /\
  runs ms_clock sends feedable (inputs_of_parts last_part) (reloading last_part) /\
  ~ In EExit (sv_trace (reloading last_part)) /\ sv_buf (reloading last_part) = [] /\ sv_virtual (reloading last_part) = [] /\
  (forall j, is_down_after (inputs_of_parts last_part) j = false) /\
  out (reloading []) = "+M -M +N -N +X -X +U -U +V -V +N"%string /\
  out (reloading last_part) = "+M -M +N -N +X -X +U -U +V -V +N -N"%string.
Proof.
  split; [auto|]. split; [apply feedable_time|]. split; [apply feedable_virtual|].
  split; [apply reloading_runs; constructor|]. split; [apply reloading_runs, harmless_dec; vm_compute; reflexivity|].
  split; [vm_compute; intros H; repeat destruct H as [H|H]; try discriminate; exact H|].
  split; [vm_compute; reflexivity|]. split; [vm_compute; reflexivity|].
  split; [apply all_up_dec; vm_compute; reflexivity|]. split; vm_compute; reflexivity.
Qed.

(** The keyboards report what the first part consists of: M is held on the virtual keyboard. *)
Local Arguments IE _%N _%N _%Z.
Definition reported : list (grabbed * ievent) :=
  map (pair board) [IE EV_KEY 30 1; IE 0 0 0; IE EV_KEY 48 1; IE EV_KEY 48 0; IE EV_KEY 46 1; IE EV_KEY 32 1; IE 0 0 0].
Example C13_keyboard_case :
  runs ms_clock sends feedable (keys_read reported) at_first /\
  ~ In EExit (sv_trace at_first) /\ sv_buf at_first = [] /\
  held_on VKeyboard (keyn "M") (told (map VSend (delivered (sv_trace at_first)))).
Proof.
  split.
  { replace (keys_read reported) with (flat_map keys_in first_part) by (vm_compute; reflexivity).
    destruct three_stages_ok as [N0 U].
    refine (runs_steps _ _ _ first_part [] _ _ (ru_start _ _ _ _ _ N0 U)). apply harmless_dec. vm_compute. reflexivity. }
  split; [vm_compute; intros H; repeat destruct H as [H|H]; try discriminate; exact H|].
  split; vm_compute; reflexivity.
Qed.
