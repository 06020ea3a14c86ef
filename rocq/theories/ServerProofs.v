(** Proofs about the server. *)
From Coq Require Import List Arith NArith ZArith Bool Lia SpecFloat.
From Verif Require Import Base Key Match Stage StageSpec MultiStage Server ServerSpec.
Import ListNotations.
Local Open Scope N_scope.

(** * Micro steps *)

(** translate_core without the bookkeeping of the last key and without exit. *)
Definition feed (clock : nat -> Z) (e : event) (dev : Z) (s : server) : server :=
  let '(m, out) := m_update e dev (sv_stage s) in
  let s := put_stage m (log (EFeed e dev) s) in
  let '(s, out) :=
    match back out with
    | Some r => if ek r =? k_timeout
                then (schedule_timeout clock (ev r) (cancel_timeout_on_up (es r)) s, pop_back out)
                else (s, out)
    | None => (s, out)
    end in
  let s := send_key_sequence (copy_delta e out) s in
  put_stage (m_reuse_buffer (sv_stage s)) s.

Lemma core_cases : forall clock reset e dev s,
  let s0 := if ek e =? k_timeout then s else put_last e s in
  let m := fst (m_update e dev (sv_stage s0)) in
  translate_core clock reset e dev s =
  if m_should_exit m then (log EExit (reset (put_stage m (log (EFeed e dev) s0))), true)
  else (feed clock e dev s0, true).
Proof.
  intros clock reset e dev s. cbn zeta. unfold translate_core, feed.
  set (s0 := if ek e =? k_timeout then s else put_last e s).
  destruct (m_update e dev (sv_stage s0)) as [m out]. cbn [fst].
  change (sv_stage (put_stage m (log (EFeed e dev) s0))) with m.
  destruct (m_should_exit m); [reflexivity|].
  destruct (back out) as [r|]; [destruct (ek r =? k_timeout)|]; reflexivity.
Qed.

Inductive label : Type :=
| LMisc
| LFeed (e : event) (dev : Z)
| LExit (e : event) (dev : Z)
| LPush (l : sequence)
| LRelease
| LClear (m : mstage)
| LExitClear
| LContexts (l : list Z)
| LDevices (ds : list device_desc)
| LValidate (f : key -> bool)
| LVirtual (l : list key)
| LReport (k : key) (st : kstate)
| LFlush.

(** Everything but the stage, the queue, the virtual keys and the effects that matter. *)
Record same_core (s s' : server) : Prop := {
  c_stage : sv_stage s' = sv_stage s;
  c_buf : sv_buf s' = sv_buf s;
  c_virtual : sv_virtual s' = sv_virtual s;
  c_sending : sv_sending s' = sv_sending s;
  c_trace : exists new, sv_trace s' = new ++ sv_trace s /\ Forall minor new
}.

Section Steps.
Variable clock : nat -> Z.
Variable send_ok : nat -> bool.

(** One micro step.  The first component is the position in the queue while it is being
    flushed. *)
Inductive micro : option nat * server -> label -> option nat * server -> Prop :=
| mi_misc c s s' : same_core s s' -> micro (c, s) LMisc (c, s')
| mi_feed c s e dev :
    m_should_exit (fst (m_update e dev (sv_stage s))) = false ->
    micro (c, s) (LFeed e dev) (c, feed clock e dev s)
| mi_exit c s e dev :
    m_should_exit (fst (m_update e dev (sv_stage s))) = true ->
    micro (c, s) (LExit e dev) (c, put_stage (fst (m_update e dev (sv_stage s))) (log (EFeed e dev) s))
| mi_push c s l : micro (c, s) (LPush l) (c, send_key_sequence l s)
| mi_release c s : micro (c, s) LRelease (c, release_all_keys s)
| mi_clear c s m : micro (c, s) (LClear m) (c, clear_configuration m s)
| mi_exit_clear c s : micro (c, s) LExitClear (c, clear_configuration (MS [] [] []) s)
| mi_contexts c s l m out : m_set_active_client_contexts l (sv_stage s) = (m, out) ->
    micro (c, s) (LContexts l) (c, put_stage (m_reuse_buffer m) (send_key_sequence out s))
| mi_devices c s ds :
    micro (c, s) (LDevices ds) (c, put_stage (m_evaluate_device_filters ds (sv_stage s)) s)
| mi_validate c s f : micro (c, s) (LValidate f) (c, put_stage (m_validate_state f (sv_stage s)) s)
| mi_virtual c s l : micro (c, s) (LVirtual l) (c, put_virtual l s)
| mi_report c s k st : micro (c, s) (LReport k st) (c, log (EVirtual k st) s)
| mi_begin s : sv_sending s = false ->
    micro (None, s) LFlush (Some 0%nat, put_flush None (put_sending true s))
| mi_skip i s e : nth_error (sv_buf s) i = Some e -> calls_for e = [] ->
    micro (Some i, s) LFlush (Some (S i), s)
| mi_action i s e : nth_error (sv_buf s) i = Some e -> calls_for e = [EAction (ek e - first_action)] ->
    micro (Some i, s) LFlush (Some (S i), log (EAction (ek e - first_action)) s)
| mi_send i s e : nth_error (sv_buf s) i = Some e -> calls_for e = [ESend e true] ->
    send_ok (sv_sends s) = true ->
    micro (Some i, s) LFlush (Some (S i), log (ESend e true) (count_send s))
| mi_fail i s e : nth_error (sv_buf s) i = Some e -> send_ok (sv_sends s) = false ->
    micro (Some i, s) LFlush (Some i, log (ESend e false) (count_send s))
| mi_end i s : (i <= length (sv_buf s))%nat ->
    micro (Some i, s) LFlush (None, put_sending false (put_buf (skipn i (sv_buf s)) s)).

Inductive steps : option nat * server -> list label -> option nat * server -> Prop :=
| st_nil x : steps x [] x
| st_cons x l y ls z : micro x l y -> steps y ls z -> steps x (l :: ls) z.

Lemma steps_app : forall x l1 y l2 z, steps x l1 y -> steps y l2 z -> steps x (l1 ++ l2) z.
Proof. intros x l1 y l2 z H. induction H; intros H2; [exact H2|]. cbn. econstructor; eauto. Qed.
Lemma steps_one : forall x l y, micro x l y -> steps x [l] y.
Proof. intros. econstructor; [eassumption|constructor]. Qed.

(** The trace only grows. *)
Lemma push_all : forall l s,
  let s' := send_key_sequence l s in
  sv_stage s' = sv_stage s /\ sv_buf s' = sv_buf s ++ l /\ sv_virtual s' = sv_virtual s /\
  sv_sending s' = sv_sending s /\ sv_trace s' = rev (map EQueue l) ++ sv_trace s /\
  sv_start s' = sv_start s /\ sv_flush s' = sv_flush s /\ sv_last s' = sv_last s /\
  sv_next s' = sv_next s /\ sv_oof s' = sv_oof s /\ sv_sends s' = sv_sends s /\ sv_ticks s' = sv_ticks s /\
  sv_timeout s' = sv_timeout s /\ sv_on_up s' = sv_on_up s /\ sv_devices s' = sv_devices s.
Proof.
  unfold send_key_sequence. induction l as [|e l IH]; intros s; cbn [fold_left].
  - rewrite app_nil_r. repeat split.
  - specialize (IH (push e s)). cbn zeta in IH.
    destruct IH as (I1 & I2 & I3 & I4 & I5 & I6 & I7 & I8 & I9 & I10 & I11 & I12 & I13 & I14 & I15).
    cbn [push log put_buf sv_stage sv_buf sv_virtual sv_sending sv_trace sv_start sv_flush sv_last sv_next
         sv_oof sv_sends sv_ticks sv_timeout sv_on_up sv_devices] in *.
    cbn zeta. rewrite I1, I2, I3, I4, I5, I6, I7, I8, I9, I10, I11, I12, I13, I14, I15.
    cbn [map rev]. rewrite <- !app_assoc. repeat split.
Qed.

(** What feeding an event does to the other parts. *)
Definition request (out : sequence) : list effect :=
  match back out with
  | Some r => if ek r =? k_timeout then [ETimeout (ev r) (cancel_timeout_on_up (es r))] else []
  | None => []
  end.
Definition keys_of (e : event) (out : sequence) : sequence :=
  copy_delta e (match request out with [] => out | _ => pop_back out end).

Lemma feed_spec : forall e dev s m out, m_update e dev (sv_stage s) = (m, out) ->
  let s' := feed clock e dev s in
  sv_stage s' = m_reuse_buffer m /\ sv_buf s' = sv_buf s ++ keys_of e out /\
  sv_virtual s' = sv_virtual s /\ sv_sending s' = sv_sending s /\
  sv_trace s' = rev (map EQueue (keys_of e out)) ++ request out ++ EFeed e dev :: sv_trace s /\
  sv_flush s' = sv_flush s /\ sv_last s' = sv_last s /\ sv_next s' = sv_next s /\ sv_oof s' = sv_oof s /\
  sv_sends s' = sv_sends s /\ sv_devices s' = sv_devices s /\
  match request out with
  | ETimeout v u :: _ => sv_start s' = Some (clock (sv_ticks s)) /\ sv_timeout s' = duration_of_ms v /\
                         sv_on_up s' = u /\ sv_ticks s' = S (sv_ticks s)
  | _ => sv_start s' = sv_start s /\ sv_timeout s' = sv_timeout s /\ sv_on_up s' = sv_on_up s /\
         sv_ticks s' = sv_ticks s
  end.
Proof.
  intros e dev s m out E. cbn zeta. unfold feed, keys_of, request. rewrite E.
  destruct (back out) as [r|] eqn:Eb; [destruct (ek r =? k_timeout)|].
  - pose proof (push_all (copy_delta e (pop_back out))
      (schedule_timeout clock (ev r) (cancel_timeout_on_up (es r)) (put_stage m (log (EFeed e dev) s)))) as P.
    cbn zeta in P. set (s1 := send_key_sequence _ _) in *. clearbody s1.
    destruct P as (I1 & I2 & I3 & I4 & I5 & I6 & I7 & I8 & I9 & I10 & I11 & I12 & I13 & I14 & I15).
    cbn [put_stage sv_stage sv_buf sv_virtual sv_sending sv_trace sv_start sv_flush sv_last sv_next
         sv_oof sv_sends sv_ticks sv_timeout sv_on_up sv_devices].
    rewrite I1, I2, I3, I4, I5, I6, I7, I8, I9, I10, I11, I12, I13, I14, I15. repeat split.
  - pose proof (push_all (copy_delta e out) (put_stage m (log (EFeed e dev) s))) as P.
    cbn zeta in P. set (s1 := send_key_sequence _ _) in *. clearbody s1.
    destruct P as (I1 & I2 & I3 & I4 & I5 & I6 & I7 & I8 & I9 & I10 & I11 & I12 & I13 & I14 & I15).
    cbn [put_stage sv_stage sv_buf sv_virtual sv_sending sv_trace sv_start sv_flush sv_last sv_next
         sv_oof sv_sends sv_ticks sv_timeout sv_on_up sv_devices].
    rewrite I1, I2, I3, I4, I5, I6, I7, I8, I9, I10, I11, I12, I13, I14, I15. repeat split.
  - pose proof (push_all (copy_delta e out) (put_stage m (log (EFeed e dev) s))) as P.
    cbn zeta in P. set (s1 := send_key_sequence _ _) in *. clearbody s1.
    destruct P as (I1 & I2 & I3 & I4 & I5 & I6 & I7 & I8 & I9 & I10 & I11 & I12 & I13 & I14 & I15).
    cbn [put_stage sv_stage sv_buf sv_virtual sv_sending sv_trace sv_start sv_flush sv_last sv_next
         sv_oof sv_sends sv_ticks sv_timeout sv_on_up sv_devices].
    rewrite I1, I2, I3, I4, I5, I6, I7, I8, I9, I10, I11, I12, I13, I14, I15. repeat split.
Qed.

Lemma feed_sends_sending : forall e dev s, sv_sending (feed clock e dev s) = sv_sending s.
Proof. intros. destruct (m_update e dev (sv_stage s)) as [m out] eqn:E. apply (feed_spec _ _ _ _ _ E). Qed.

Lemma micro_trace : forall x l y, micro x l y -> exists new, sv_trace (snd y) = new ++ sv_trace (snd x).
Proof.
  intros x l y H. destruct H; cbn [snd].
  - destruct H as [_ _ _ _ (new & E & _)]. eauto.
  - destruct (m_update e dev (sv_stage s)) as [m out] eqn:E.
    destruct (feed_spec _ _ _ _ _ E) as (_ & _ & _ & _ & Et & _). rewrite Et.
    exists (rev (map EQueue (keys_of e out)) ++ request out ++ [EFeed e dev]). rewrite <- !app_assoc. reflexivity.
  - exists [EFeed e dev]. reflexivity.
  - destruct (push_all l s) as (_ & _ & _ & _ & Et & _). rewrite Et. eauto.
  - unfold release_all_keys. destruct (push_all (map (fun k => ev0 k Up) (m_output_keys_down (sv_stage s))) s)
      as (_ & _ & _ & _ & Et & _). rewrite Et. eauto.
  - exists []. reflexivity.
  - exists []. reflexivity.
  - destruct (push_all out s) as (_ & _ & _ & _ & Et & _). cbn [put_stage sv_trace]. rewrite Et. eauto.
  - exists []. reflexivity.
  - exists []. reflexivity.
  - exists []. reflexivity.
  - exists [EVirtual k st]. reflexivity.
  - exists []. reflexivity.
  - exists []. reflexivity.
  - exists [EAction (ek e - first_action)]. reflexivity.
  - exists [ESend e true]. reflexivity.
  - exists [ESend e false]. reflexivity.
  - exists []. reflexivity.
Qed.
Lemma steps_trace : forall x ls y, steps x ls y -> exists new, sv_trace (snd y) = new ++ sv_trace (snd x).
Proof.
  intros x ls y H. induction H as [x|x l y ls z H1 H2 IH]; [exists []; reflexivity|].
  destruct IH as (n2 & E2). destruct (micro_trace _ _ _ H1) as (n1 & E1). exists (n2 ++ n1).
  rewrite E2, E1, app_assoc. reflexivity.
Qed.

Definition sending_ok (x : option nat * server) : Prop :=
  sv_sending (snd x) = match fst x with Some _ => true | None => false end.
Lemma micro_sending : forall x l y, micro x l y -> sending_ok x -> sending_ok y.
Proof.
  intros x l y H. unfold sending_ok. destruct H; cbn [fst snd]; intros Hx; auto.
  - destruct H as [_ _ _ E _]. rewrite E. exact Hx.
  - rewrite feed_sends_sending. exact Hx.
  - rewrite (proj1 (proj2 (proj2 (proj2 (push_all _ s))))). exact Hx.
  - unfold release_all_keys. rewrite (proj1 (proj2 (proj2 (proj2 (push_all _ s))))). exact Hx.
  - cbn [put_stage sv_sending]. rewrite (proj1 (proj2 (proj2 (proj2 (push_all _ s))))). exact Hx.
Qed.
Lemma steps_sending : forall x ls y, steps x ls y -> sending_ok x -> sending_ok y.
Proof. intros x ls y H. induction H; intros Hx; [exact Hx|]. apply IHsteps. eapply micro_sending; eauto. Qed.

Definition is_exit (l : label) : Prop := match l with LExit _ _ | LExitClear => True | _ => False end.

(** Which labels can occur, up to [LFlush] and those of single requests. *)
Record closed (ok : label -> Prop) : Prop := {
  cl_misc : ok LMisc;
  cl_virtual : forall l, ok (LVirtual l);
  cl_report : forall k st, ok (LReport k st);
  cl_release : ok LRelease;
  cl_exit_clear : ok LExitClear;
  cl_exit : forall e dev, ok (LExit e dev);
  cl_contexts : forall l, ok (LContexts l);
  cl_devices : forall ds, ok (LDevices ds);
  (* the events which can be fed *)
  cl_timeout : forall v e dev, ok (LFeed e dev) -> ok (LFeed (make_input_timeout_event v) dev);
  cl_wheel : forall k v dev, is_mouse_wheel k = true -> ok (LFeed (Ev k Up v) dev) ->
    ok (LFeed (Ev k Down v) dev);
  cl_toggle : forall k st, is_virtual_key k = true -> (st = Down \/ st = Up) ->
    ok (LFeed (ev0 k st) any_device)
}.

Section Labels.
Variable ok : label -> Prop.
Hypothesis Hc : closed ok.
Let ok_misc := cl_misc ok Hc.
Let ok_virtual := cl_virtual ok Hc.
Let ok_report := cl_report ok Hc.
Let ok_release := cl_release ok Hc.
Let ok_exit_clear := cl_exit_clear ok Hc.
Let ok_exit := cl_exit ok Hc.
Let ok_timeout := cl_timeout ok Hc.
Let ok_wheel := cl_wheel ok Hc.
Let ok_toggle := cl_toggle ok Hc.

Definition runs2 (x y : option nat * server) : Prop :=
  exists ls, steps x ls y /\ Forall ok ls /\ (Exists is_exit ls -> In EExit (sv_trace (snd y))).
Definition runs (c : option nat) (s s' : server) : Prop := runs2 (c, s) (c, s').
(** The same without the last condition, for resets when exiting. *)
Definition runs0 (c : option nat) (s s' : server) : Prop :=
  exists ls, steps (c, s) ls (c, s') /\ Forall ok ls.

Lemma runs2_trans : forall x y z, runs2 x y -> runs2 y z -> runs2 x z.
Proof.
  intros x y z (l1 & A1 & A2 & A3) (l2 & B1 & B2 & B3). exists (l1 ++ l2).
  split; [eapply steps_app; eassumption|]. split; [apply Forall_app; auto|].
  intros H. apply Exists_app in H. destruct H as [H|H]; [|auto].
  destruct (steps_trace _ _ _ B1) as (new & E). rewrite E. apply in_or_app. right. auto.
Qed.
Lemma runs_refl : forall c s, runs c s s.
Proof. intros. exists []. split; [constructor|]. split; [constructor|]. intros H. inversion H. Qed.
Lemma runs_trans : forall c s1 s2 s3, runs c s1 s2 -> runs c s2 s3 -> runs c s1 s3.
Proof. intros c s1 s2 s3. apply runs2_trans. Qed.
Lemma runs_one : forall c s l s', micro (c, s) l (c, s') -> ok l -> ~ is_exit l -> runs c s s'.
Proof.
  intros c s l s' H Ho Hn. exists [l]. split; [apply steps_one; exact H|]. split; [constructor; auto|].
  intros He. inversion He; subst; [contradiction|]. inversion H1.
Qed.
Lemma runs_misc : forall c s s', same_core s s' -> runs c s s'.
Proof. intros c s s' H. eapply runs_one; [constructor; exact H|exact ok_misc|intros []]. Qed.
Lemma runs_sending : forall c s s', runs c s s' -> sending_ok (c, s) -> sending_ok (c, s').
Proof. intros c s s' (ls & H & _). apply (steps_sending _ _ _ H). Qed.

Ltac core := constructor; try reflexivity;
  [first [exists []; split; [reflexivity|constructor]
         | eexists [_]; split; [reflexivity|constructor; [exact I|constructor]]]].

Lemma misc_tick : forall s, same_core s (tick s). Proof. intros. core. Qed.
Lemma misc_last : forall e s, same_core s (put_last e s). Proof. intros. core. Qed.
Lemma misc_cancel : forall s, same_core s (cancel_timeout s). Proof. intros. core. Qed.
Lemma misc_next : forall b s, same_core s (put_next b s). Proof. intros. core. Qed.
Lemma misc_log : forall x s, minor x -> same_core s (log x s).
Proof. intros x s H. constructor; try reflexivity. exists [x]. split; [reflexivity|constructor; auto]. Qed.
Lemma misc_oof : forall s, same_core s (put_oof s). Proof. intros. core. Qed.
Lemma misc_devices : forall ds s, same_core s (put_devices ds s). Proof. intros. core. Qed.
Lemma misc_schedule : forall v s, same_core s (schedule_flush clock v s).
Proof. intros v s. unfold schedule_flush. destruct (sv_flush s); core. Qed.

(** ** translate_input *)

Lemma core_runs : forall reset c e dev s,
  (forall s, sending_ok (c, s) -> runs0 c s (reset s)) -> sending_ok (c, s) ->
  ok (LFeed e dev) -> runs c s (fst (translate_core clock reset e dev s)).
Proof.
  intros reset c e dev s Hreset Hs Hok. rewrite core_cases. cbn zeta.
  set (s0 := if ek e =? k_timeout then s else put_last e s).
  assert (H0 : runs c s s0).
  { subst s0. destruct (ek e =? k_timeout); [apply runs_refl|apply runs_misc, misc_last]. }
  assert (Hs0 : sending_ok (c, s0)) by (eapply runs_sending; eassumption).
  clearbody s0. eapply runs_trans; [exact H0|].
  destruct (m_should_exit (fst (m_update e dev (sv_stage s0)))) eqn:E; cbn [fst].
  - set (s1 := put_stage (fst (m_update e dev (sv_stage s0))) (log (EFeed e dev) s0)).
    destruct (Hreset s1 Hs0) as (ls & L1 & L2).
    exists (LExit e dev :: ls ++ [LMisc]). split.
    + econstructor; [apply mi_exit; exact E|]. eapply steps_app; [exact L1|]. apply steps_one.
      constructor. apply misc_log. exact I.
    + split; [constructor; [apply ok_exit|apply Forall_app; split; [exact L2|constructor; [exact ok_misc|constructor]]]|].
      intros _. left. reflexivity.
  - eapply runs_one; [apply mi_feed; exact E|exact Hok|intros []].
Qed.

Lemma translate_runs : forall reset c,
  (forall s, sending_ok (c, s) -> runs0 c s (reset s)) -> forall fuel e dev s, sending_ok (c, s) ->
  ok (LFeed e dev) -> runs c s (fst (translate_with clock reset fuel e dev s)).
Proof.
  intros reset c Hreset. induction fuel as [|fuel IH]; intros e dev s Hs Hok; cbn [translate_with].
  { apply runs_misc, misc_oof. }
  destruct (_ && _); [apply runs_refl|]. destruct (_ && _).
  { cbn [fst]. eapply runs_trans; [|apply runs_misc, misc_next]. apply runs_misc, misc_log. exact I. }
  set (s1 := match sv_start s with Some t => _ | None => s end).
  assert (H1 : runs c s s1).
  { subst s1. destruct (sv_start s) as [t|]; [|apply runs_refl].
    destruct (_ || _); [|apply runs_refl].
    assert (G : runs c s (cancel_timeout (tick s))).
    { eapply runs_trans; apply runs_misc; [apply misc_tick|apply misc_cancel]. }
    eapply runs_trans; [exact G|]. apply IH; [eapply runs_sending; eassumption|].
    unfold elapsed_event. eapply ok_timeout. exact Hok. }
  assert (Hs1 : sending_ok (c, s1)) by (eapply runs_sending; eassumption). clearbody s1.
  set (s2 := if is_mouse_wheel (ek e) && kstate_eqb (es e) Up then _ else s1).
  assert (H2 : runs c s1 s2).
  { subst s2. destruct (is_mouse_wheel (ek e)) eqn:Ew; [|apply runs_refl].
    destruct (kstate_eqb (es e) Up) eqn:Eu; [|apply runs_refl]. cbn [andb].
    apply IH; [exact Hs1|]. destruct e as [k st v]. cbn [ek es ev] in *.
    assert (st = Up) by (destruct st; try discriminate; reflexivity). subst st. apply ok_wheel; assumption. }
  assert (Hs2 : sending_ok (c, s2)) by (eapply runs_sending; eassumption). clearbody s2.
  eapply runs_trans; [exact H1|]. eapply runs_trans; [exact H2|]. apply core_runs; assumption.
Qed.

Lemma set_virtual_runs : forall translate c k st s,
  (forall st s, (st = Down \/ st = Up) -> sending_ok (c, s) -> runs c s (fst (translate (ev0 k st) any_device s))) ->
  sending_ok (c, s) -> runs c s (set_virtual_with translate k st s).
Proof.
  intros translate c k st s Ht Hs. unfold set_virtual_with.
  assert (Hr : forall st s, runs c s (if is_virtual_key k then log (EVirtual k st) s else s)).
  { intros st' s'. destruct (is_virtual_key k); [|apply runs_refl].
    eapply runs_one; [constructor|apply ok_report|intros []]. }
  destruct (find_index (N.eqb k) (sv_virtual s)) as [i|].
  - destruct (negb (kstate_eqb st Down)); [|apply runs_refl].
    eapply runs_trans; [eapply runs_one; [apply mi_virtual|apply ok_virtual|intros []]|].
    eapply runs_trans; [|apply Hr]. apply Ht; [auto|exact Hs].
  - destruct (negb (kstate_eqb st Up)); [|apply runs_refl].
    eapply runs_trans; [eapply runs_one; [apply mi_virtual|apply ok_virtual|intros []]|].
    eapply runs_trans; [|apply Hr]. apply Ht; [auto|exact Hs].
Qed.

Lemma reset_sending_runs : forall c s, runs0 c s (reset_while_sending s).
Proof.
  intros c s. unfold reset_while_sending. exists [LRelease; LExitClear]. split.
  - econstructor; [apply mi_release|]. apply steps_one. apply mi_exit_clear.
  - constructor; [exact ok_release|]. constructor; [exact ok_exit_clear|constructor].
Qed.

Lemma toggle_runs : forall c k s, is_virtual_key k = true -> sending_ok (c, s) ->
  runs c s (toggle_virtual_key clock k s).
Proof.
  intros c k s Hk Hs. unfold toggle_virtual_key. apply set_virtual_runs; [|exact Hs].
  intros st s' Hst Hs'. apply translate_runs; [intros; apply reset_sending_runs|exact Hs'|apply ok_toggle; assumption].
Qed.

End Labels.

(** ** flush_send_buffer *)

Lemma calls_for_cases : forall e,
  (if is_mouse_wheel (ek e) && kstate_eqb (es e) Down then calls_for e = []
   else if is_action_key (ek e) then
     if kstate_eqb (es e) Down then calls_for e = [EAction (ek e - first_action)] else calls_for e = []
   else if is_virtual_key (ek e) then calls_for e = []
   else if ek e =? k_timeout then calls_for e = []
   else calls_for e = [ESend e true]).
Proof.
  intros e. unfold calls_for.
  assert (Hva : is_action_key (ek e) = true -> is_virtual_key (ek e) = false).
  { unfold is_action_key, is_virtual_key, in_range. intros H. apply andb_prop in H. destruct H as [H1 H2].
    apply andb_false_iff. right. apply N.leb_gt. apply N.leb_le in H1. eapply N.lt_le_trans; [|exact H1]. reflexivity. }
  assert (Hta : is_action_key (ek e) = true -> ek e =? k_timeout = false).
  { intros H. apply N.eqb_neq. intros E. rewrite E in H. discriminate. }
  assert (Hw : is_mouse_wheel (ek e) = true -> is_action_key (ek e) = false /\ is_virtual_key (ek e) = false /\ ek e =? k_timeout = false).
  { intros H. unfold is_mouse_wheel, in_range in H. apply andb_prop in H. destruct H as [H1 H2].
    apply N.leb_le in H2.
    assert (B : forall x, WheelRight < x -> ek e <? x = true) by (intros; apply N.ltb_lt; lia).
    unfold is_action_key, is_virtual_key, in_range.
    split; [|split]; [apply andb_false_iff; left; apply N.leb_gt; eapply N.le_lt_trans; [exact H2|reflexivity]..|].
    apply N.eqb_neq. intros E. rewrite E in H2. apply H2. reflexivity. }
  destruct (is_mouse_wheel (ek e)) eqn:W; cbn [andb].
  - destruct (Hw eq_refl) as (A & V & T). rewrite A, V, T. destruct (kstate_eqb (es e) Down); reflexivity.
  - destruct (is_action_key (ek e)) eqn:A.
    + rewrite (Hta eq_refl), (Hva eq_refl). destruct (es e); reflexivity.
    + destruct (is_virtual_key (ek e)); [destruct (ek e =? k_timeout); reflexivity|].
      destruct (ek e =? k_timeout); reflexivity.
Qed.

(** The part of flush_loop between two toggles, as in Server.v. *)
Definition scan (left : nat) (again : nat -> server -> server * nat * bool) :=
  fix scan (rest : sequence) (i : nat) (s : server) {struct rest} : server * nat * bool :=
     match rest with
     | [] => (s, i, true)
     | e :: r =>
         if is_mouse_wheel (ek e) && kstate_eqb (es e) Down then scan r (S i) s
         else if is_action_key (ek e) then
           scan r (S i) (if kstate_eqb (es e) Down then log (EAction (ek e - first_action)) s else s)
         else if is_virtual_key (ek e) then
           if kstate_eqb (es e) Down then
             match left with
             | O => scan r (S i) s
             | S _ => again (S i) (toggle_virtual_key clock (ek e) s)
             end
           else scan r (S i) s
         else if ek e =? k_timeout then (schedule_flush clock (ev e) s, S i, true)
         else if send_ok (sv_sends s)
         then scan r (S i) (log (ESend e true) (count_send s))
         else (log (ESend e false) (count_send s), i, false)
     end.
Lemma flush_loop_scan : forall left i s,
  flush_loop clock send_ok left i s =
  scan left (match left with O => fun i s => (s, i, true) | S l => flush_loop clock send_ok l end)
       (skipn i (sv_buf s)) i s.
Proof.
  intros left i s. destruct left as [|left]; cbn [flush_loop].
  - generalize (skipn i (sv_buf s)). intros l. revert i s.
    induction l as [|e l IH]; intros i s; [reflexivity|]. cbn [scan].
    destruct (_ && _); [apply IH|]. destruct (is_action_key _); [apply IH|].
    destruct (is_virtual_key _); [destruct (kstate_eqb _ _); apply IH|].
    destruct (_ =? _); [reflexivity|]. destruct (send_ok _); [apply IH|reflexivity].
  - generalize (skipn i (sv_buf s)). intros l. revert i s.
    induction l as [|e l IH]; intros i s; [reflexivity|]. cbn [scan].
    destruct (_ && _); [apply IH|]. destruct (is_action_key _); [apply IH|].
    destruct (is_virtual_key _); [destruct (kstate_eqb _ _); [reflexivity|apply IH]|].
    destruct (_ =? _); [reflexivity|]. destruct (send_ok _); [apply IH|reflexivity].
Qed.

Lemma closed_no_flush : closed (fun l => l <> LFlush).
Proof. constructor; intros; discriminate. Qed.

Lemma micro_grows : forall x l y, micro x l y -> l <> LFlush ->
  fst y = fst x /\ exists more, sv_buf (snd y) = sv_buf (snd x) ++ more.
Proof.
  intros x l y H Hl. destruct H; try (exfalso; apply Hl; reflexivity); cbn [fst snd]; (split; [reflexivity|]);
    try (exists []; rewrite app_nil_r; reflexivity).
  - destruct H as [_ E _ _ _]. exists []. rewrite app_nil_r. exact E.
  - destruct (m_update e dev (sv_stage s)) as [m out] eqn:E.
    destruct (feed_spec _ _ _ _ _ E) as (_ & Eb & _). eauto.
  - eexists. apply (push_all l s).
  - unfold release_all_keys. eexists. apply (push_all _ s).
  - eexists. apply (push_all out s).
Qed.
Lemma steps_grows : forall x ls y, steps x ls y -> Forall (fun l => l <> LFlush) ls ->
  fst y = fst x /\ exists more, sv_buf (snd y) = sv_buf (snd x) ++ more.
Proof.
  intros x ls y H. induction H as [x|x l y ls z H1 H2 IH]; intros Hl.
  - split; [reflexivity|]. exists []. rewrite app_nil_r. reflexivity.
  - inversion_clear Hl. destruct (IH H0) as (E1 & m2 & E2). destruct (micro_grows _ _ _ H1 H) as (E3 & m1 & E4).
    split; [congruence|]. exists (m1 ++ m2). rewrite E2, E4, app_assoc. reflexivity.
Qed.
Lemma toggle_grows : forall k s, is_virtual_key k = true ->
  exists more, sv_buf (toggle_virtual_key clock k s) = sv_buf s ++ more.
Proof.
  intros k s Hk.
  destruct (toggle_runs _ closed_no_flush (if sv_sending s then Some 0%nat else None) k s Hk) as (ls & H1 & H2 & _).
  { unfold sending_ok. cbn [fst snd]. destruct (sv_sending s); reflexivity. }
  destruct (steps_grows _ _ _ H1 H2) as (_ & H3). exact H3.
Qed.

Lemma skipn_nth : forall {A} i (l : list A) e r, skipn i l = e :: r ->
  nth_error l i = Some e /\ skipn (S i) l = r /\ (S i <= length l)%nat.
Proof.
  induction i as [|i IH]; intros l e r H.
  - cbn in H. subst l. cbn. split; [reflexivity|]. split; [reflexivity|]. lia.
  - destruct l as [|x l]; [discriminate|]. cbn [skipn] in H. destruct (IH l e r H) as (H1 & H2 & H3).
    cbn [nth_error length]. split; [exact H1|]. split; [exact H2|]. lia.
Qed.

Section Flush.
Variable ok : label -> Prop.
Hypothesis Hc : closed ok.
Hypothesis ok_flush : ok LFlush.

Lemma runs2_flush : forall i s y, micro (Some i, s) LFlush y -> runs2 ok (Some i, s) y.
Proof.
  intros i s y H. exists [LFlush]. split; [apply steps_one; exact H|]. split; [constructor; auto|].
  intros He. inversion He; subst; [contradiction|]. inversion H1.
Qed.

Lemma scan_runs : forall left again,
  (left <> 0%nat -> forall i s, sending_ok (Some i, s) -> (i <= length (sv_buf s))%nat ->
     let '(s', i', _) := again i s in runs2 ok (Some i, s) (Some i', s') /\ (i' <= length (sv_buf s'))%nat) ->
  forall rest i s, rest = skipn i (sv_buf s) -> sending_ok (Some i, s) -> (i <= length (sv_buf s))%nat ->
  let '(s', i', _) := scan left again rest i s in
  runs2 ok (Some i, s) (Some i', s') /\ (i' <= length (sv_buf s'))%nat.
Proof.
  intros left again Hag. induction rest as [|e r IH]; intros i s Hr Hs Hi.
  { cbn [scan]. split; [apply (runs_refl ok)|exact Hi]. }
  destruct (skipn_nth i (sv_buf s) e r (eq_sym Hr)) as (Hn & Hr' & Hi').
  pose proof (calls_for_cases e) as Hcf. cbn [scan].
  assert (Hskip : calls_for e = [] -> runs2 ok (Some i, s) (Some (S i), s)).
  { intros E. apply runs2_flush. eapply mi_skip; eassumption. }
  assert (Hgo : forall s', runs2 ok (Some i, s) (Some (S i), s') -> sv_buf s' = sv_buf s -> sending_ok (Some i, s') ->
    let '(s'', i', _) := scan left again r (S i) s' in
    runs2 ok (Some i, s) (Some i', s'') /\ (i' <= length (sv_buf s''))%nat).
  { intros s' H1 H2 H3. specialize (IH (S i) s' ltac:(rewrite H2; auto) H3 ltac:(rewrite H2; exact Hi')).
    destruct (scan left again r (S i) s') as [[s'' i'] b]. split; [|apply IH].
    eapply runs2_trans; [exact H1|apply IH]. }
  destruct (is_mouse_wheel (ek e) && kstate_eqb (es e) Down); [apply Hgo; auto|].
  destruct (is_action_key (ek e)).
  { destruct (kstate_eqb (es e) Down); [|apply Hgo; auto].
    apply Hgo; [apply runs2_flush; eapply mi_action; eassumption|reflexivity|exact Hs]. }
  destruct (is_virtual_key (ek e)) eqn:Ev.
  { destruct (kstate_eqb (es e) Down); [|apply Hgo; auto].
    destruct left as [|left]; [apply Hgo; auto|].
    pose proof (toggle_runs ok Hc (Some (S i)) (ek e) s Ev Hs) as Ht.
    destruct (toggle_grows (ek e) s Ev) as (more & Em).
    specialize (Hag ltac:(discriminate) (S i) (toggle_virtual_key clock (ek e) s)
      (runs_sending ok _ _ _ Ht Hs) ltac:(rewrite Em, app_length; lia)).
    destruct (again (S i) (toggle_virtual_key clock (ek e) s)) as [[s'' i'] b].
    split; [|apply Hag]. eapply runs2_trans; [apply Hskip; exact Hcf|].
    eapply runs2_trans; [exact Ht|apply Hag]. }
  destruct (ek e =? k_timeout).
  { split.
    - eapply runs2_trans; [apply Hskip; exact Hcf|]. apply (runs_misc ok Hc), misc_schedule.
    - unfold schedule_flush. destruct (sv_flush s); exact Hi'. }
  destruct (send_ok (sv_sends s)) eqn:Eo.
  - apply Hgo; [apply runs2_flush; eapply mi_send; eassumption|reflexivity|exact Hs].
  - split; [apply runs2_flush; eapply mi_fail; eassumption|exact Hi].
Qed.

Lemma flush_loop_runs : forall left i s, sending_ok (Some i, s) -> (i <= length (sv_buf s))%nat ->
  let '(s', i', _) := flush_loop clock send_ok left i s in
  runs2 ok (Some i, s) (Some i', s') /\ (i' <= length (sv_buf s'))%nat.
Proof.
  induction left as [|left IH]; intros i s Hs Hi; rewrite flush_loop_scan.
  - apply scan_runs; auto. intros H. contradiction.
  - apply scan_runs; auto.
Qed.

Lemma flush_runs : forall s, sending_ok (None, s) -> runs ok None s (fst (flush_send_buffer clock send_ok s)).
Proof.
  intros s Hs. unfold flush_send_buffer. unfold sending_ok in Hs. cbn [fst snd] in Hs. rewrite Hs.
  set (s0 := put_flush None (put_sending true s)).
  pose proof (flush_loop_runs 9 0 s0 eq_refl (Nat.le_0_l _)) as H.
  destruct (flush_loop clock send_ok 9 0 s0) as [[s1 i] b]. destruct H as [H1 H2]. cbn [fst].
  eapply runs2_trans; [exists [LFlush]; split; [apply steps_one, mi_begin; exact Hs|split; [constructor; auto|]]|].
  { intros He. inversion He; subst; [contradiction|]. inversion H0. }
  eapply runs2_trans; [exact H1|]. apply runs2_flush. apply mi_end. exact H2.
Qed.

Lemma flush_unless_runs : forall s, sending_ok (None, s) -> runs ok None s (flush_unless_scheduled clock send_ok s).
Proof.
  intros s Hs. unfold flush_unless_scheduled. destruct (sv_flush s); [apply runs_refl|apply flush_runs; exact Hs].
Qed.

(** ** Requests *)

Lemma contexts_runs : forall l s, sending_ok (None, s) -> runs ok None s (set_active_contexts clock send_ok l s).
Proof.
  intros l s Hs. unfold set_active_contexts.
  destruct (m_set_active_client_contexts l (sv_stage s)) as [m out] eqn:E.
  assert (Es : put_stage (m_reuse_buffer (sv_stage (send_key_sequence out (put_stage m s))))
                 (send_key_sequence out (put_stage m s)) =
               put_stage (m_reuse_buffer m) (send_key_sequence out s)).
  { rewrite (proj1 (push_all out (put_stage m s))). cbn [put_stage sv_stage].
    unfold send_key_sequence. generalize s. clear. induction out as [|e out IH]; intros s; [reflexivity|].
    cbn [fold_left]. change (push e (put_stage m s)) with (put_stage m (push e s)). apply IH. }
  rewrite Es.
  assert (H : runs ok None s (put_stage (m_reuse_buffer m) (send_key_sequence out s))).
  { eapply runs_one; [eapply mi_contexts; exact E|apply cl_contexts; exact Hc|intros []]. }
  eapply runs_trans; [exact H|]. apply flush_unless_runs. eapply runs_sending; eassumption.
Qed.

Lemma filters_runs : forall s, sending_ok (None, s) -> runs ok None s (evaluate_filters clock send_ok s).
Proof.
  intros s Hs. unfold evaluate_filters. destruct (_ || _); [apply runs_refl|].
  assert (H : runs ok None s (put_stage (m_evaluate_device_filters (sv_devices s) (sv_stage s)) s)).
  { eapply runs_one; [apply mi_devices|apply cl_devices; exact Hc|intros []]. }
  eapply runs_trans; [exact H|]. apply contexts_runs. eapply runs_sending; eassumption.
Qed.

Lemma reset_runs : forall m s, sending_ok (None, s) ->
  ok (LClear (match m with Some m => m | None => MS [] [] [] end)) ->
  runs ok None s (reset_configuration clock send_ok m s).
Proof.
  intros m s Hs Hm. unfold reset_configuration.
  assert (H1 : runs ok None s (release_all_keys s)).
  { eapply runs_one; [apply mi_release|apply cl_release; exact Hc|intros []]. }
  pose proof (runs_sending ok _ _ _ H1 Hs) as Hs1.
  pose proof (flush_runs _ Hs1) as H2. pose proof (runs_sending ok _ _ _ H2 Hs1) as Hs2.
  eapply runs_trans; [exact H1|]. eapply runs_trans; [exact H2|].
  eapply runs_trans; [eapply runs_one; [apply mi_clear|exact Hm|intros []]|].
  apply filters_runs. exact Hs2.
Qed.

Lemma empty_filters : forall s, m_stages (sv_stage s) = [] -> evaluate_filters clock send_ok s = s.
Proof. intros s H. unfold evaluate_filters, m_has_device_filters. rewrite H. reflexivity. Qed.

Lemma reset_exit_runs : forall s, sending_ok (None, s) -> runs0 ok None s (reset_configuration clock send_ok None s).
Proof.
  intros s Hs. unfold reset_configuration. rewrite empty_filters by reflexivity.
  assert (H1 : runs ok None s (release_all_keys s)).
  { eapply runs_one; [apply mi_release|apply cl_release; exact Hc|intros []]. }
  pose proof (runs_sending ok _ _ _ H1 Hs) as Hs1.
  destruct (runs_trans ok _ _ _ _ H1 (flush_runs _ Hs1)) as (ls & L1 & L2 & _).
  exists (ls ++ [LExitClear]). split; [eapply steps_app; [exact L1|apply steps_one, mi_exit_clear]|].
  apply Forall_app. split; [exact L2|]. constructor; [apply cl_exit_clear; exact Hc|constructor].
Qed.

Lemma translate_input_runs : forall e dev s, sending_ok (None, s) -> ok (LFeed e dev) ->
  runs ok None s (fst (translate_input clock send_ok e dev s)).
Proof.
  intros e dev s Hs Hok. unfold translate_input. apply translate_runs; try assumption.
  apply reset_exit_runs.
Qed.

Lemma translate_true : forall reset fuel e dev s, snd (translate_with clock reset fuel e dev s) = true.
Proof.
  intros reset [|fuel] e dev s; [reflexivity|]. cbn [translate_with].
  destruct (_ && _); [reflexivity|]. destruct (_ && _); [reflexivity|].
  rewrite core_cases. cbn zeta. destruct (m_should_exit _); reflexivity.
Qed.

(** The labels which single requests need. *)
Definition step_ok (x : step) : Prop :=
  match x with
  | SInput e dev => ok (LFeed e dev)
  | SExpire => forall v, ok (LFeed (make_input_timeout_event v) any_device)
  | SFlush | SDevices _ => True
  | SReset => ok (LClear (MS [] [] []))
  | SMessage m =>
      match m with
      | MConfig (Some m) => ok (LClear m)
      | MConfig None | MContexts _ | MNextKey => True
      | MVirtual k _ => ok (LFeed (ev0 k Down) any_device) /\ ok (LFeed (ev0 k Up) any_device)
      | MValidate f => ok (LValidate f)
      | MInjectInput l => Forall (fun e => (es e = Up \/ es e = Down) -> is_device_key (ek e) = true ->
                                           ok (LFeed e no_device)) l
      | MInjectOutput l => ok (LPush l)
      end
  end.

Lemma inject_runs : forall l s, sending_ok (None, s) -> step_ok (SMessage (MInjectInput l)) ->
  runs ok None s (inject_input clock send_ok l s).
Proof.
  induction l as [|e l IH]; intros s Hs Hl; cbn [inject_input]; [apply runs_refl|].
  inversion_clear Hl. set (s1 := if _ && _ then _ else s).
  assert (G : runs ok None s s1).
  { subst s1. destruct (match es e with Up | Down => true | _ => false end && is_device_key (ek e)) eqn:E; [|apply runs_refl].
    apply andb_prop in E. destruct E as [E1 E2].
    pose proof (translate_input_runs e no_device s Hs) as Ht.
    pose proof (translate_true (reset_configuration clock send_ok None) translate_depth e no_device s) as Hb.
    fold (translate_input clock send_ok e no_device s) in Hb.
    destruct (translate_input clock send_ok e no_device s) as [s' b]. cbn [fst snd] in *. subst b.
    apply Ht. apply H; [destruct (es e); try discriminate; auto|exact E2]. }
  eapply runs_trans; [exact G|]. apply IH; [eapply runs_sending; eassumption|assumption].
Qed.

Lemma message_runs : forall m s, sending_ok (None, s) -> step_ok (SMessage m) ->
  runs ok None s (on_message clock send_ok m s).
Proof.
  intros [[m|]|l|k st|f| |l|l] s Hs Hm; cbn [on_message].
  - apply reset_runs; assumption.
  - apply runs_refl.
  - apply contexts_runs. exact Hs.
  - assert (H : runs ok None s (set_virtual_with (translate_input clock send_ok) k st s)).
    { apply set_virtual_runs; [exact Hc| |exact Hs]. intros st' s' Hst Hs'. apply translate_input_runs; [exact Hs'|].
      destruct Hm as [Hd Hu]. destruct Hst as [E|E]; rewrite E; assumption. }
    eapply runs_trans; [exact H|]. apply flush_unless_runs. eapply runs_sending; eassumption.
  - eapply runs_one; [apply mi_validate|exact Hm|intros []].
  - apply (runs_misc ok Hc), misc_next.
  - eapply runs_trans; [apply (inject_runs l s Hs Hm)|]. apply (runs_misc ok Hc), misc_schedule.
  - eapply runs_trans; [eapply runs_one; [apply mi_push|exact Hm|intros []]|]. apply (runs_misc ok Hc), misc_schedule.
Qed.

Theorem step_runs : forall x s, sending_ok (None, s) -> step_ok x ->
  runs ok None s (server_step clock send_ok x s).
Proof.
  intros [e dev| | |ds|m| ] s Hs Hx; cbn [server_step].
  - apply translate_input_runs; assumption.
  - destruct (sv_start s); [|apply runs_refl].
    eapply runs_trans; [apply (runs_misc ok Hc), misc_cancel|].
    apply translate_input_runs; [exact Hs|]. unfold expired_event. apply Hx.
  - apply flush_runs. exact Hs.
  - unfold set_device_descs. eapply runs_trans; [apply (runs_misc ok Hc), misc_devices|]. apply filters_runs. exact Hs.
  - apply message_runs; assumption.
  - apply reset_runs; assumption.
Qed.

Theorem run_runs : forall l s, sending_ok (None, s) -> Forall step_ok l ->
  runs ok None s (server_run clock send_ok l s).
Proof.
  induction l as [|x l IH]; intros s Hs Hl; cbn [server_run]; [apply runs_refl|].
  inversion_clear Hl. pose proof (step_runs x s Hs H) as H1.
  eapply runs_trans; [exact H1|]. apply IH; [eapply runs_sending; eassumption|assumption].
Qed.

End Flush.
End Steps.
