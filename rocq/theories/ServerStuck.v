(** What the server has queued leaves nothing pressed unless a key is pressed. *)
From Coq Require Import List Arith NArith ZArith Bool Lia SpecFloat.
From Verif Require Import Base Key Match Stage MatchProofs StageSpec StageOut StageShape.
From Verif Require Import MultiStage MultiSpec MultiProofs Server ServerLoop ServerSpec ServerProofs ServerQueue ServerFlush ServerReset.
From Verif Require Import StuckSpec StuckStagesSpec StuckStages StuckServerSpec.
Import ListNotations.
Local Open Scope N_scope.

Section Stuck.
Variable K : key -> Prop.
Hypothesis KF : forall k, K k -> feedable k.
Hypothesis KT : K k_timeout.
Hypothesis KV : forall k, is_virtual_key k = true -> K k.

Definition any_key (k : key) : Prop := True.
Definition nextD (D : key -> bool) (e : event) (k : key) : bool :=
  if ek e =? k then kstate_eqb (es e) Down else D k.

Lemma nextD_mono : forall D D' e, (forall k, D k = true -> D' k = true) -> forall k, nextD D e k = true -> nextD D' e k = true.
Proof. intros D D' e H k. unfold nextD. destruct (_ =? _); auto. Qed.

(** [D] tells which keys the stages were told to be pressed. *)
Definition base (D : key -> bool) (s : server) : Prop :=
  exists I T, (forall k, is_down_after I k = D k) /\ mchain K I (sv_stage s) T /\
    ServerReset.covers T (queued (sv_trace s)) /\ Forall (ok_out any_key) (queued (sv_trace s)) /\
    (D (ek (sv_last s)) = true -> es (sv_last s) = Down) /\ D k_timeout = false.
Definition atmost (D : key -> bool) (s : server) : Prop :=
  exists D', base D' s /\ forall k, D' k = true -> D k = true.
Lemma atmost_ext : forall D D' s, (forall k, D k = true -> D' k = true) -> atmost D s -> atmost D' s.
Proof. intros D D' s H (D0 & B & H0). exists D0. auto. Qed.

Definition unless_exit (P : Prop) (s s' : server) : Prop :=
  (In EExit (sv_trace s) -> In EExit (sv_trace s')) /\ (In EExit (sv_trace s') \/ P).
Definition takes (e : event) (s s' : server) : Prop :=
  unless_exit ((forall D, base D s -> atmost (nextD D e) s') /\ sv_virtual s' = sv_virtual s) s s'.
Definition same (s s' : server) : Prop :=
  unless_exit ((forall D, base D s -> atmost D s') /\ sv_virtual s' = sv_virtual s) s s'.
Lemma base_atmost : forall D s, base D s -> atmost D s.
Proof. intros D s H. exists D. auto. Qed.
Lemma same_refl : forall s, same s s.
Proof. intros s. split; auto. right. split; [|reflexivity]. intros D. apply base_atmost. Qed.
Lemma same_trans : forall a b c, same a b -> same b c -> same a c.
Proof.
  intros a b c [A1 A2] [B1 B2]. split; [auto|]. destruct A2 as [A2|[A2 A3]]; [auto|]. destruct B2 as [B2|[B2 B3]]; [auto|].
  right. split; [|congruence]. intros D H. destruct (A2 D H) as (D' & H1 & H2). eapply atmost_ext; [|apply B2, H1]. exact H2.
Qed.
Lemma same_takes : forall e a b c, same a b -> takes e b c -> takes e a c.
Proof.
  intros e a b c [A1 A2] [B1 B2]. split; [auto|]. destruct A2 as [A2|[A2 A3]]; [auto|]. destruct B2 as [B2|[B2 B3]]; [auto|].
  right. split; [|congruence]. intros D H. destruct (A2 D H) as (D' & H1 & H2). eapply atmost_ext; [|apply B2, H1].
  now apply nextD_mono.
Qed.
Lemma released_covers : forall T Q l, released l -> ServerReset.covers T Q -> ServerReset.covers T (Q ++ l).
Proof.
  intros T Q l R H k Hk Hd. specialize (R k Hk). rewrite down_after_app in Hd. unfold is_down_after in R.
  destruct (find_last (has_key k) l) as [e|]; [congruence|auto].
Qed.
Lemma same_new : forall s s' new, sv_stage s' = sv_stage s -> sv_trace s' = new ++ sv_trace s ->
  sv_last s' = sv_last s -> sv_virtual s' = sv_virtual s -> released (queued new) -> Forall (ok_out any_key) (queued new) -> same s s'.
Proof.
  intros s s' new E1 E2 E3 E5 Q F. split; [rewrite E2; intros H; apply in_or_app; auto|]. right. split; [|exact E5].
  intros D (I & T & H1 & H2 & H3 & H4 & H5 & H6). apply base_atmost. exists I, T. rewrite E1, E3, E2, queued_app.
  split; [exact H1|]. split; [exact H2|]. split; [now apply released_covers|]. split; [apply Forall_app; auto|auto].
Qed.
Ltac silent l := apply (same_new _ _ l); [reflexivity|reflexivity|reflexivity|reflexivity|intros ? ?; reflexivity|constructor].
Lemma timeout_same : forall e a b, ek e = k_timeout -> es e = Up -> takes e a b -> same a b.
Proof.
  intros e a b E1 E2 [A1 A2]. split; [exact A1|]. destruct A2 as [A2|[A2 A3]]; [auto|right]. split; [|exact A3].
  intros D H. eapply atmost_ext; [|apply A2; exact H]. intros k. unfold nextD. rewrite E1, E2.
  destruct (N.eqb_spec k_timeout k) as [<-|]; [discriminate|auto].
Qed.

Definition fine (e : event) : Prop := wf_event e /\ K (ek e) /\ is_action_key (ek e) = false.
Lemma timeout_fine : forall v, fine (make_input_timeout_event v).
Proof. intros v. split; [|split; [exact KT|reflexivity]]. split; [discriminate|]. right. split; [reflexivity|]. right. left. reflexivity. Qed.

Lemma request_silent : forall out, queued (request out) = [].
Proof. intros out. unfold request. destruct (back out); [|reflexivity]. destruct (_ =? _); reflexivity. Qed.
Lemma keys_ok : forall e out, is_mouse_wheel (ek e) = false -> Forall (ok_out any_key) out -> Forall (ok_out any_key) (keys_of e out).
Proof.
  intros e out W H. unfold keys_of, copy_delta. rewrite W. unfold request. destruct (back out) as [r|] eqn:Eb; [|auto].
  destruct (ek r =? k_timeout); [|auto]. destruct out as [|x out] using rev_ind; [discriminate|].
  unfold pop_back. rewrite removelast_last. apply Forall_app in H. tauto.
Qed.

Section Server.
Variable clock : nat -> Z.
Variable send_ok : nat -> bool.

Lemma stuck_fed : forall e dev s, fine e -> takes e s (feed clock e dev (if ek e =? k_timeout then s else put_last e s)).
Proof.
  intros e dev s (He & HK & HA). set (s0 := if ek e =? k_timeout then s else put_last e s).
  assert (E0 : sv_stage s0 = sv_stage s /\ sv_trace s0 = sv_trace s /\ sv_virtual s0 = sv_virtual s)
    by (unfold s0; destruct (_ =? _); auto). destruct E0 as (Z1 & Z2 & Z4).
  destruct (m_update e dev (sv_stage s0)) as [m out] eqn:Eu.
  destruct (feed_spec clock _ _ _ _ _ Eu) as (F1 & _ & F0 & _ & F2 & _ & F3 & F4 & _).
  split; [rewrite F2, Z2; intros H; repeat (apply in_or_app; right); right; exact H|]. right. split; [|congruence].
  intros D (I & T & H1 & H2 & H3 & H4 & H5 & H7). rewrite Z1 in Eu. apply base_atmost.
  destruct (mchain_update K e dev I (sv_stage s) T KF He KT HK HA H2) as [M1 M2].
  rewrite Eu in M1, M2. cbn [fst snd] in *.
  assert (Q : queued (sv_trace (feed clock e dev s0)) = queued (sv_trace s) ++ keys_of e out).
  { rewrite F2, !queued_app, queued_cons, request_silent, Z2. cbn [queued_one]. rewrite !app_nil_r.
    destruct (pushed (keys_of e out)) as [-> _]. reflexivity. }
  destruct (KF _ HK) as (_ & _ & _ & W).
  exists (I ++ [e]), (T ++ out).
  assert (HD : forall k, is_down_after (I ++ [e]) k = nextD D e k).
  { intros k. rewrite down_after_snoc. unfold nextD. rewrite H1. reflexivity. }
  split; [exact HD|]. split; [rewrite F1; exact M1|]. rewrite Q.
  split; [apply covers_app; [apply find_last_keys|exact H3]|].
  split; [apply Forall_app; split; [exact H4|now apply keys_ok]|]. rewrite F3. split.
  - unfold s0. destruct (N.eqb_spec (ek e) k_timeout) as [E|E].
    + unfold nextD. destruct (N.eqb_spec (ek e) (ek (sv_last s))) as [E'|E']; [|exact H5].
      destruct He as [_ [(_ & X & _)|[-> _]]]; [contradiction|discriminate].
    + cbn [put_last sv_last]. unfold nextD. rewrite N.eqb_refl. destruct (es e); auto; discriminate.
  - unfold nextD. destruct (N.eqb_spec (ek e) k_timeout) as [E|E]; [|exact H7].
    destruct He as [_ [(_ & X & _)|[-> _]]]; [contradiction|reflexivity].
Qed.

Lemma stuck_core : forall reset e dev s, fine e -> takes e s (fst (translate_core clock reset e dev s)).
Proof.
  intros reset e dev s He. rewrite core_cases. cbn zeta. destruct (m_should_exit _).
  - split; [intros _|]; [left; reflexivity|left; left; reflexivity].
  - cbn [fst]. now apply stuck_fed.
Qed.

Lemma stuck_translate : forall reset fuel e dev s, fine e -> (ek e <> k_timeout -> (2 <= fuel)%nat) -> (1 <= fuel)%nat ->
  (ek e = k_timeout -> sv_start s = None) ->
  takes e s (fst (translate_with clock reset fuel e dev s)).
Proof.
  intros reset. induction fuel as [|fuel IH]; intros e dev s He Hf Hf1 Hs; [lia|].
  cbn [translate_with]. destruct (event_eqb e (sv_last s) && _) eqn:Er.
  { cbn [fst]. split; [auto|right]. split; [|reflexivity]. intros D P. apply andb_prop in Er as [Er _]. apply event_eqb_eq in Er.
    exists D. split; [exact P|]. intros k Hk. unfold nextD. destruct (N.eqb_spec (ek e) k) as [<-|]; [|exact Hk].
    destruct P as (I & T & _ & _ & _ & _ & P & _). rewrite Er in *. rewrite P by exact Hk. reflexivity. }
  destruct (sv_next s && _ && _ && _) eqn:En.
  { cbn [fst]. split; [intros H; right; exact H|right]. split; [|reflexivity]. intros D P.
    apply andb_prop in En as [_ En]. apply (atmost_ext D).
    - intros k Hk. unfold nextD. rewrite En. destruct (_ =? _); auto.
    - apply base_atmost. destruct P as (I & T & H1 & H2 & H3 & H4 & H5). exists I, T.
      cbn [put_next log sv_trace sv_stage sv_last]. rewrite queued_cons. cbn [queued_one]. rewrite app_nil_r. auto. }
  clear Er En. set (s1 := match sv_start s with Some _ => _ | None => _ end).
  assert (K1 : same s s1).
  { unfold s1. destruct (sv_start s) as [t|] eqn:Est; [|apply same_refl]. destruct (_ || _); [|apply same_refl].
    cbn zeta. eapply same_trans.
    2:{ eapply timeout_same; [| |apply IH]; [reflexivity|reflexivity|apply timeout_fine|intros X; now destruct X| |reflexivity].
        destruct (N.eq_dec (ek e) k_timeout) as [E|E]; [specialize (Hs E); discriminate|]. specialize (Hf E). lia. }
    silent [ECancel]. }
  clearbody s1. cbn zeta.
  assert (W : is_mouse_wheel (ek e) = false) by (destruct He as (_ & HK & _); apply (KF _ HK)).
  rewrite W. cbn [andb]. eapply same_takes; [exact K1|]. now apply stuck_core.
Qed.

(** * Virtual keys *)

(** [D] tells which keys other than virtual ones were input as pressed. *)
Definition srv (D : key -> bool) (s : server) : Prop :=
  exists D', base D' s /\ (forall k, is_virtual_key k = false -> D' k = true -> D k = true) /\
    (forall k, is_virtual_key k = true -> D' k = true -> In k (sv_virtual s)).
Definition keeps (s s' : server) : Prop := unless_exit (forall D, srv D s -> srv D s') s s'.
Lemma keeps_refl : forall s, keeps s s.
Proof. intros s. split; auto. Qed.
Lemma keeps_trans : forall a b c, keeps a b -> keeps b c -> keeps a c.
Proof. intros a b c [A1 A2] [B1 B2]. split; [auto|]. destruct A2, B2; auto. Qed.
Local Notation "a ;; b" := (keeps_trans _ _ _ a b) (at level 60, right associativity).
Lemma same_keeps : forall a b, same a b -> keeps a b.
Proof.
  intros a b [A1 A2]. split; [exact A1|]. destruct A2 as [A2|[A2 A3]]; [auto|right].
  intros D (D' & H1 & H2 & H3). destruct (A2 D' H1) as (D0 & B & H0). exists D0. rewrite A3. auto.
Qed.
Lemma takes_srv : forall e a b, is_virtual_key (ek e) = false -> takes e a b ->
  unless_exit (forall D, srv D a -> srv (nextD D e) b) a b.
Proof.
  intros e a b V [A1 A2]. split; [exact A1|]. destruct A2 as [A2|[A2 A3]]; [auto|right].
  intros D (D' & H1 & H2 & H3). destruct (A2 D' H1) as (D0 & B & H0). exists D0. rewrite A3. split; [exact B|].
  split; intros k Hk Hd; apply H0 in Hd; unfold nextD in *.
  - destruct (_ =? _); auto.
  - destruct (N.eqb_spec (ek e) k) as [E|E]; [congruence|auto].
Qed.
Lemma srv_ext : forall D D' s, (forall k, D k = true -> D' k = true) -> srv D s -> srv D' s.
Proof. intros D D' s E (D0 & H1 & H2 & H3). exists D0. auto. Qed.

Lemma virtual_fine : forall j st, is_virtual_key j = true -> (st = Down \/ st = Up) -> fine (ev0 j st).
Proof.
  intros j st V S0. split; [|split; [now apply KV|]].
  - assert (A : j <> k_none /\ j <> k_timeout) by (split; intros ->; discriminate V).
    split; [apply A|]. destruct S0 as [->| ->]; [left|right]; cbn [ev0 es ek ev]; intuition.
  - cbn [ev0 ek]. unfold is_virtual_key, is_action_key, in_range in *. apply andb_prop in V as [_ V]. apply N.leb_le in V.
    apply andb_false_iff. left. apply N.leb_gt. eapply N.le_lt_trans; [exact V|reflexivity].
Qed.

Lemma stuck_set_virtual : forall translate j st s, is_virtual_key j = true ->
  (forall st s, (st = Down \/ st = Up) -> takes (ev0 j st) s (fst (translate (ev0 j st) any_device s))) ->
  keeps s (set_virtual_with translate j st s).
Proof.
  intros translate j st s V Ht. unfold set_virtual_with. cbn zeta. rewrite V.
  assert (H : forall st' l, (st' = Down \/ st' = Up) ->
    (forall k, (st' = Down /\ k = j) \/ (k <> j /\ In k (sv_virtual s)) -> In k l) ->
    keeps s (log (EVirtual j st') (fst (translate (ev0 j st') any_device (put_virtual l s))))).
  { intros st' l Hst Hl. destruct (Ht st' (put_virtual l s) Hst) as [A1 A2].
    set (s1 := fst (translate _ _ _)) in *. clearbody s1. split; [intros X; right; apply A1; exact X|].
    destruct A2 as [A2|[A2 A3]]; [left; right; exact A2|right].
    intros D (D' & B & E1 & E2).
    assert (B1 : base D' (put_virtual l s)) by exact B. apply A2 in B1. destruct B1 as (D0 & B1 & H0). exists D0.
    split; [|split].
    - destruct B1 as (I & T & H1 & H2 & H3 & H4 & H5). exists I, T. cbn [log sv_trace sv_stage sv_last sv_next].
      rewrite queued_cons. cbn [queued_one]. rewrite app_nil_r. auto.
    - intros k Hk Hd. apply H0 in Hd. unfold nextD in Hd. cbn [ev0 ek] in Hd. destruct (N.eqb_spec j k) as [<-|]; [congruence|auto].
    - intros k Hk Hd. cbn [log sv_virtual]. rewrite A3. cbn [put_virtual sv_virtual]. apply Hl. apply H0 in Hd.
      unfold nextD in Hd. cbn [ev0 ek es] in Hd. destruct (N.eqb_spec j k) as [<-|Hn].
      + left. split; [|reflexivity]. destruct Hst as [->| ->]; [reflexivity|discriminate].
      + right. split; [auto|]. auto. }
  destruct (find_index _ _) as [i|] eqn:Ei; (destruct (negb _); [|apply keeps_refl]); apply H; auto.
  - intros k [[X _]|[Hk Hi]]; [discriminate|]. destruct (find_index_split key _ _ _ Ei) as (a & o & b & E1 & E2 & _ & _ & E3 & _).
    apply N.eqb_eq in E2. subst o. rewrite E3. rewrite E1 in Hi. apply in_app_or in Hi. apply in_or_app.
    destruct Hi as [Hi|[Hi|Hi]]; [auto|congruence|auto].
  - intros k [[_ ->]|[_ Hi]]; apply in_or_app; [right; left; reflexivity|left; exact Hi].
Qed.

Lemma stuck_toggle : forall j s, is_virtual_key j = true -> keeps s (toggle_virtual_key clock j s).
Proof.
  intros j s V. apply stuck_set_virtual; [exact V|]. intros st s0 S0.
  apply stuck_translate; [now apply virtual_fine|unfold translate_depth; lia|unfold translate_depth; lia|].
  cbn [ev0 ek]. intros ->. discriminate V.
Qed.
Ltac quiet l := apply same_keeps; silent l.

Lemma stuck_schedule : forall v s, keeps s (schedule_flush clock v s).
Proof. intros v s. unfold schedule_flush. destruct (sv_flush s); [apply keeps_refl|quiet [EFlushAt v]]. Qed.

Lemma stuck_scan : forall left again, (left <> 0%nat -> forall i s, keeps s (fst (fst (again i s)))) ->
  forall rest i s, keeps s (fst (fst (scan clock send_ok left again rest i s))).
Proof.
  intros left again Hag. induction rest as [|e r IH]; intros i s; cbn [scan]; [apply keeps_refl|].
  destruct (is_mouse_wheel (ek e) && kstate_eqb (es e) Down); [apply IH|].
  destruct (is_action_key (ek e)).
  { destruct (kstate_eqb (es e) Down); [|apply IH]. refine (_ ;; IH _ _). quiet [EAction (ek e - first_action)]. }
  destruct (is_virtual_key (ek e)) eqn:V.
  { destruct (kstate_eqb (es e) Down); [|apply IH]. destruct left as [|left]; [apply IH|].
    exact (stuck_toggle _ _ V ;; Hag ltac:(discriminate) _ _). }
  destruct (ek e =? k_timeout); [apply stuck_schedule|].
  destruct (send_ok (sv_sends s)); [refine (_ ;; IH _ _); quiet [ESend e true]|quiet [ESend e false]].
Qed.
Lemma stuck_loop : forall left i s, keeps s (fst (fst (flush_loop clock send_ok left i s))).
Proof.
  induction left as [|left IH]; intros i s; rewrite flush_loop_scan; apply stuck_scan; [intros H; contradiction|].
  intros _. exact IH.
Qed.
Lemma stuck_flush : forall s, keeps s (fst (flush_send_buffer clock send_ok s)).
Proof.
  intros s. unfold flush_send_buffer. destruct (sv_sending s); [apply keeps_refl|].
  pose proof (stuck_loop 9 0 (put_flush None (put_sending true s))) as H.
  destruct (flush_loop _ _ _ _ _) as [[s' i] b]. refine (_ ;; H ;; _); quiet (@nil effect).
Qed.
Lemma stuck_flush_unless : forall s, keeps s (flush_unless_scheduled clock send_ok s).
Proof. intros s. unfold flush_unless_scheduled. destruct (sv_flush s); [apply keeps_refl|apply stuck_flush]. Qed.

Lemma stuck_set_contexts : forall l s, keeps s (set_active_contexts clock send_ok l s).
Proof.
  intros l s. unfold set_active_contexts. destruct (m_set_active_client_contexts l (sv_stage s)) as [m out] eqn:E.
  refine (_ ;; stuck_flush_unless _). apply same_keeps.
  destruct (push_all out (put_stage m s)) as (I1 & _ & I2 & _ & I5 & _ & _ & I8 & I9 & _).
  set (s1 := send_key_sequence out (put_stage m s)) in *. clearbody s1. cbn [put_stage sv_stage sv_trace sv_last sv_virtual] in *.
  split; [cbn [put_stage sv_trace]; rewrite I5; intros H; apply in_or_app; auto|]. right. split; [|exact I2].
  intros D (I & T & H1 & H2 & H3 & H4 & H5 & H6). apply base_atmost. exists I, (T ++ out).
  destruct (mchain_contexts K l I (sv_stage s) T KT H2) as [M1 M2]. rewrite E in M1, M2. cbn [fst snd] in *.
  assert (Q : queued (sv_trace s1) = queued (sv_trace s) ++ out).
  { rewrite I5, queued_app. destruct (pushed out) as [-> _]. reflexivity. }
  cbn [put_stage sv_stage sv_trace sv_last]. rewrite ?I1, ?I8, Q. split; [exact H1|]. split; [exact M1|].
  split; [apply covers_app; [reflexivity|exact H3]|]. split; [apply Forall_app; auto|auto].
Qed.
Lemma stuck_filters : forall s, keeps s (evaluate_filters clock send_ok s).
Proof.
  intros s. unfold evaluate_filters. destruct (_ || _); [apply keeps_refl|].
  refine (_ ;; stuck_set_contexts _ _). apply same_keeps. split; [auto|]. right. split; [|reflexivity].
  intros D (I & T & H1 & H2 & H3). apply base_atmost. exists I, T. cbn [put_stage sv_stage sv_trace sv_last].
  split; [exact H1|]. split; [now apply mchain_devices|exact H3].
Qed.

(** * Requests *)

Definition steps_to (D : key -> bool) (l : sequence) (k : key) : bool :=
  match find_last (has_key k) l with Some e => kstate_eqb (es e) Down | None => D k end.
Lemma steps_cons : forall D e l k, steps_to D (e :: l) k = steps_to (nextD D e) l k.
Proof.
  intros D e l k. unfold steps_to. cbn [find_last]. destruct (find_last _ l); [reflexivity|]. unfold nextD, has_key.
  destruct (_ =? _); reflexivity.
Qed.

Lemma stuck_input : forall e dev s, device_event K e -> takes e s (fst (translate_input clock send_ok e dev s)).
Proof.
  intros e dev s (H1 & H2 & H3 & H4 & H5). apply stuck_translate; [split; auto|unfold translate_depth; lia|unfold translate_depth; lia|].
  intros E. contradiction.
Qed.
Lemma stuck_inject : forall l s, Forall (fun e => injects e = true -> device_event K e) l ->
  unless_exit (forall D, srv D s -> srv (steps_to D (List.filter injects l)) (inject_input clock send_ok l s)) s (inject_input clock send_ok l s).
Proof.
  induction l as [|e l IH]; intros s H; cbn [inject_input List.filter]; [split; auto|].
  pose proof (Forall_inv H) as He. apply Forall_inv_tail in H. fold (injects e) in *. unfold injects in He at 1.
  change (match es e with Up | Down => true | _ => false end && is_device_key (ek e)) with (injects e) in *.
  destruct (injects e) eqn:J; [|apply IH; exact H].
  specialize (He eq_refl). pose proof (stuck_input e no_device s He) as Ht. apply takes_srv in Ht; [|apply He].
  pose proof (translate_true clock (reset_configuration clock send_ok None) translate_depth e no_device s) as Hb.
  fold (translate_input clock send_ok e no_device s) in Hb.
  destruct (translate_input clock send_ok e no_device s) as [s' b]. cbn [fst snd] in *. subst b.
  destruct Ht as [T1 T2]. destruct (IH s' H) as [I1 I2]. split; [auto|]. destruct T2 as [T2|T2]; [auto|]. destruct I2 as [I2|I2]; [auto|].
  right. intros D Hd. apply T2, I2 in Hd. eapply srv_ext; [|exact Hd]. intros k. now rewrite steps_cons.
Qed.

Lemma stuck_step : forall x s, harmless K x ->
  unless_exit (forall D, srv D s -> srv (steps_to D (keys_in x)) (server_step clock send_ok x s)) s (server_step clock send_ok x s).
Proof.
  intros x s Hx.
  assert (G : forall y, keys_in y = [] -> keeps s (server_step clock send_ok y s) ->
    unless_exit (forall D, srv D s -> srv (steps_to D (keys_in y)) (server_step clock send_ok y s)) s (server_step clock send_ok y s)).
  { intros y E H. rewrite E. exact H. }
  destruct x as [e dev| | |ds|[[m|]|l|j st|f| |l|l]| ]; cbn [harmless] in Hx; try contradiction; try (apply G; [reflexivity|]);
    cbn [server_step on_message].
  - pose proof (takes_srv _ _ _ ltac:(apply Hx) (stuck_input e dev s Hx)) as [T1 T2]. split; [exact T1|].
    destruct T2 as [T2|T2]; [auto|right]. intros D P. cbn [keys_in]. eapply srv_ext; [|apply T2; exact P]. intros k. now rewrite steps_cons.
  - destruct (sv_start s) eqn:E; [|apply keeps_refl]. cbn zeta. apply same_keeps.
    apply (same_trans _ (cancel_timeout s)); [silent [ECancel]|].
    apply (timeout_same (expired_event (sv_timeout s))); [reflexivity|reflexivity|].
    apply stuck_translate; [apply timeout_fine|intros X; now destruct X|unfold translate_depth; lia|reflexivity].
  - apply stuck_flush.
  - unfold set_device_descs. refine (_ ;; stuck_filters _). quiet (@nil effect).
  - apply keeps_refl.
  - apply stuck_set_contexts.
  - refine (_ ;; stuck_flush_unless _). apply stuck_set_virtual; [exact Hx|]. intros st' s0 S0.
    apply stuck_translate; [now apply virtual_fine|unfold translate_depth; lia|unfold translate_depth; lia|].
    cbn [ev0 ek]. intros ->. discriminate Hx.
  - quiet (@nil effect).
  - destruct (stuck_inject l s Hx) as [T1 T2]. destruct (stuck_schedule 0 (inject_input clock send_ok l s)) as [U1 U2].
    split; [auto|]. destruct T2 as [T2|T2]; [left; apply U1; exact T2|]. destruct U2 as [U2|U2]; [auto|right]. intros D P. apply U2, T2, P.
  - refine (_ ;; stuck_schedule _ _). destruct (push_all l s) as (I1 & _ & I2 & _ & I5 & _ & _ & I8 & I9 & _).
    destruct (pushed l) as [Q _]. apply same_keeps, (same_new _ _ (rev (map EQueue l))); try assumption; rewrite Q; apply Hx.
Qed.

(** * New configurations *)

Lemma stuck_fresh : forall cfg s D, unstuck_stages K cfg -> held_none s -> sv_stage s = new_multi_stage cfg ->
  Forall (ok_out any_key) (queued (sv_trace s)) -> srv D s.
Proof.
  intros cfg s D U H E Q. exists (fun _ => false). split; [|split; intros; discriminate].
  exists [], []. rewrite E. split; [reflexivity|]. split; [now apply mchain_init|].
  split; [|split; [exact Q|split; [discriminate|reflexivity]]].
  intros k Hk Hd. rewrite (H k Hk) in Hd. discriminate.
Qed.
Lemma ups_ok : forall l, Forall (ok_out any_key) (map (fun k => ev0 k Up) l).
Proof. intros l. apply Forall_map, Forall_forall. intros k _. split; [exact Logic.I|]. split; [right; left|left]; reflexivity. Qed.
Lemma stuck_clears : forall m s, sv_sending s = false -> no_virtual (sv_buf s) -> held_none (release_all_keys s) ->
  Forall (ok_out any_key) (queued (sv_trace s)) ->
  let s' := clear_configuration m (fst (flush_send_buffer clock send_ok (release_all_keys s))) in
  held_none s' /\ no_virtual (sv_buf s') /\ sv_sending s' = false /\ sv_stage s' = m /\ Forall (ok_out any_key) (queued (sv_trace s')).
Proof.
  intros m s Hs Hi Hh Hq. cbn zeta.
  destruct (flush_flushed clock send_ok (release_all_keys s)) as ([_ _ (new & E & Hn)] & Hv & Hsend).
  { destruct (release_fields s) as (-> & _). exact Hs. }
  { apply release_virtual. exact Hi. }
  unfold held_none. cbn [clear_configuration put_stage put_virtual put_flush put_start sv_trace sv_buf sv_sending sv_stage].
  rewrite E, queued_app, (untracked_queued new Hn), app_nil_r. split; [exact Hh|]. split; [exact Hv|]. split; [exact Hsend|].
  split; [reflexivity|]. destruct (release_fields s) as (_ & _ & _ & ->). apply Forall_app. split; [exact Hq|apply ups_ok].
Qed.
Lemma srv_ok : forall D s, srv D s -> Forall (ok_out any_key) (queued (sv_trace s)).
Proof. intros D s (D' & (I & T & _ & _ & _ & H & _) & _). exact H. Qed.

Definition inv (D : key -> bool) (s : server) : Prop :=
  sv_sending s = false /\ (In EExit (sv_trace s) \/ (exists n, tinv n s) /\ srv D s).
Lemma unstuck_mapped : forall cfg, cfg <> [] -> unstuck_stages K cfg -> mapped cfg.
Proof.
  intros cfg H U. split; [exact H|]. clear -U. revert K U. induction cfg as [|cs r IH]; intros K U; [constructor|].
  destruct U as [U1 U2]. constructor; [apply U1|eauto].
Qed.
Lemma configured_inv : forall cfg s D, cfg <> [] -> unstuck_stages K cfg -> sv_sending s = false -> held_none s ->
  sv_stage s = new_multi_stage cfg -> Forall (ok_out any_key) (queued (sv_trace s)) ->
  inv D (evaluate_filters clock send_ok s).
Proof.
  intros cfg s D H0 U H1 H2 H3 H4. assert (T : tinv (length cfg) s) by (apply configured; auto; now apply unstuck_mapped).
  split.
  - destruct (filters_runs clock send_ok any_label closed_any Logic.I s H1) as (ls & R & _). apply (steps_sending _ _ _ _ _ R H1).
  - destruct (filters_tinv clock send_ok _ s H1 T) as [X|X]; [auto|]. destruct (stuck_filters s) as [_ [Y|Y]]; [auto|right].
    split; [eauto|]. apply Y. eapply stuck_fresh; eauto.
Qed.
Lemma config_inv : forall cfg s D, cfg <> [] -> unstuck_stages K cfg -> sv_sending s = false -> no_virtual (sv_buf s) ->
  held_none (release_all_keys s) -> Forall (ok_out any_key) (queued (sv_trace s)) ->
  inv D (server_step clock send_ok (loads cfg) s).
Proof.
  intros cfg s D H0 U H1 H2 H3 H4. cbn [server_step loads on_message]. unfold reset_configuration.
  destruct (stuck_clears (new_multi_stage cfg) s H1 H2 H3 H4) as (A1 & A2 & A3 & A4 & A5).
  eapply configured_inv; eauto.
Qed.

Lemma runs_inv : forall I s, runs clock send_ok K I s -> inv (is_down_after I) s.
Proof.
  intros I s H. induction H as [ds cfg H0 U|I s x H IH Hx|I s cfg H IH Hv H0 U|I s cfg H IH Hv H0 U].
  - cbn [server_run]. change (server_step clock send_ok (SDevices ds) init_server) with (put_devices ds init_server).
    apply config_inv; auto; [constructor| |constructor]. intros k Hk. reflexivity.
  - destruct IH as [I1 I2]. split; [now apply step_sending|]. destruct I2 as [I2|[[n I2] I3]].
    { left. destruct (step_trace clock send_ok x s I1) as (new & ->). apply in_or_app. auto. }
    assert (C : calm_step n x) by (destruct x as [e dev| | |ds|[[m|]|l|j st|f| |l|l]| ]; cbn in *; tauto).
    destruct (run_tinv clock send_ok n [x] s I1) as [X|X]; [constructor; auto|exact I2|left; exact X|]. cbn [server_run] in X.
    destruct (stuck_step x s Hx) as [_ [Y|Y]]; [auto|right]. split; [eauto|]. eapply srv_ext; [|apply Y, I3].
    intros k. rewrite down_after_app. unfold steps_to. auto.
  - destruct IH as [I1 I2]. destruct I2 as [I2|[[n I2] I3]].
    { split; [now apply step_sending|]. left. destruct (step_trace clock send_ok (loads cfg) s I1) as (new & ->). apply in_or_app. auto. }
    apply config_inv; auto; [now apply (release_held n)|now apply (srv_ok (is_down_after I))].
  - destruct IH as [I1 I2]. cbn [server_run]. pose proof (step_sending clock send_ok SReset s I1) as J1.
    destruct I2 as [I2|[[n I2] I3]].
    { split; [now apply step_sending|]. left. destruct (step_trace clock send_ok (loads cfg) _ J1) as (new & ->). apply in_or_app. right.
      destruct (step_trace clock send_ok SReset s I1) as (new' & ->). apply in_or_app. auto. }
    destruct (stuck_clears (MS [] [] []) s I1 Hv (release_held n s I2) (srv_ok _ _ I3)) as (A1 & A2 & A3 & A4 & A5).
    assert (E : server_step clock send_ok SReset s = clear_configuration (MS [] [] []) (fst (flush_send_buffer clock send_ok (release_all_keys s)))) by reflexivity.
    rewrite E. set (s1 := clear_configuration _ _) in *. clearbody s1. clear E J1. apply config_inv; auto.
    intros k Hk. destruct (release_fields s1) as (_ & _ & _ & ->). rewrite A4. cbn. rewrite app_nil_r. apply A1. exact Hk.
Qed.

Lemma device_not_server : forall k, is_device_key k = true -> server_key k = false.
Proof.
  intros k H. assert (L : k < first_virtual).
  { unfold is_device_key, is_keyboard_key, is_mouse_button, is_mouse_wheel, in_range in H.
    destruct (N.lt_ge_cases k first_virtual) as [L|L]; [exact L|exfalso].
    assert (F : forall j, j < first_virtual -> (k <=? j) = false) by (intros j Hj; apply N.leb_gt; lia).
    rewrite !F in H by reflexivity. rewrite !andb_false_r in H. discriminate. }
  unfold server_key, is_virtual_key, is_action_key, in_range.
  assert (A : (first_virtual <=? k) = false) by (apply N.leb_gt; exact L).
  assert (B : (first_action <=? k) = false) by (apply N.leb_gt; eapply N.lt_trans; [exact L|reflexivity]).
  rewrite A, B. cbn [andb orb]. rewrite !orb_false_r. apply N.eqb_neq. intros ->. vm_compute in H. discriminate.
Qed.

(** What is pressed in the queue is pressed by a key which is pressed. *)
Theorem runs_held : forall I s k, runs clock send_ok K I s -> ~ In EExit (sv_trace s) -> is_device_key k = true ->
  is_down_after (queued (sv_trace s)) k = true ->
  (exists j, is_down_after I j = true) \/ (exists j, In j (sv_virtual s)).
Proof.
  intros I s k H NX Hk Hd. destruct (runs_inv I s H) as [_ [X|[_ (D & (J & T & H1 & H2 & H3 & _) & B1 & B2)]]]; [contradiction|].
  apply H3 in Hd; [|exact Hk].
  destruct (mchain_held _ _ _ _ k H2) as (j & Hj); [|exact Hd|].
  - now apply device_not_server.
  - rewrite H1 in Hj. destruct (is_virtual_key j) eqn:V; [right|left]; eauto.
Qed.
End Server.
End Stuck.
