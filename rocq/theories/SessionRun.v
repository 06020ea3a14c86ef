(** Invariants of all runs of the server *)
From Coq Require Import String Ascii List Arith NArith ZArith Bool Lia.
From Verif Require Import Base Key Text Match Stage MultiStage MultiProofs Server ServerLoop ServerProofs ServerReset Config Client ClientSpec ClientProofs Device.
From Verif Require Import Grab GrabSpec GrabProofs GrabRun GrabAlign Session SessionSpec SessionProofs.
Import ListNotations.
Local Open Scope Z_scope.

Section Run.
Variable search : text -> text -> bool.
Variable held_keys : nat -> nat -> nat -> option (list N).
Variable write_ok create_ok : nat -> nat -> bool.
Variable keyboard_ok : nat -> bool.
Variable clock : nat -> Z.
Variable send_ok : nat -> bool.
Notation ustep := (ustep search held_keys true write_ok create_ok keyboard_ok clock send_ok).
Notation urun := (urun search held_keys true write_ok create_ok keyboard_ok clock send_ok).
Notation main_turn := (main_turn search held_keys true write_ok create_ok clock send_ok).
Notation start_session := (start_session search held_keys true create_ok keyboard_ok clock send_ok).
Notation end_session := (end_session held_keys clock send_ok).
Notation sessions_orderly := (sessions_orderly search held_keys true write_ok create_ok keyboard_ok clock send_ok).

(** No device is grabbed. *)
Definition free (y : dsys) : Prop := gs_devices (ds_grab y) = [] /\ forall dev, is_grabbed (gs_log (ds_grab y)) dev = false.

(** What holds at all times *)
Definition sane (u : usys) : Prop := sv_sending (us_server u) = false /\ read_filters u.
Definition looping (u : usys) : Prop :=
  follows u /\ ds_over (us_dev u) = false /\ exists mice filters, settled search mice filters (us_dev u) /\ (exited (us_server u) \/ matched mice filters u).
Definition usound (u : usys) : Prop :=
  sane u /\
  match us_phase u with
  | PAccept => proper (ds_world (us_dev u)) /\ free (us_dev u) /\ (exited (us_server u) \/ shape (sv_stage (us_server u)) = [])
  | PConfig => proper (ds_world (us_dev u)) /\ free (us_dev u) /\ follows u /\ shape (sv_stage (us_server u)) = []
  | PLoop => looping u
  | PDone z => z = 0 -> free (us_dev u)
  end.

Lemma settled_sound mice filters y : settled search mice filters y -> sound (ds_grab y) /\ proper (ds_world y).
Proof. intros []. auto. Qed.

Lemma no_exit u : shutdown u = false -> ~ exited (us_server u).
Proof. intros H X. apply exited_shutdown in X. congruence. Qed.

Lemma next_sound u : sane u -> proper (ds_world (us_dev u)) -> free (us_dev u) ->
  (exited (us_server u) \/ shape (sv_stage (us_server u)) = []) -> usound (next_connection u).
Proof.
  intros S0 P F X. unfold next_connection. split; [exact S0|]. cbn [put_phase us_phase us_dev us_server]. destruct (shutdown u); [intros _; exact F|auto].
Qed.

Lemma end_sound result u : sane u -> sound (ds_grab (us_dev u)) -> proper (ds_world (us_dev u)) -> usound (end_session result u).
Proof.
  intros [S1 S2] SG P. unfold Session.end_session. apply next_sound.
  - split; [|exact S2]. cbn [put_dev put_server put_signal us_server]. now apply step_sending.
  - exact P.
  - split; [reflexivity|]. intro dev. cbn [put_dev put_server us_dev put_grab ds_grab]. unfold ungrab_all.
    match goal with |- is_grabbed (gs_log (put_gdevices [] ?s)) dev = false => change (is_grabbed (gs_log s) dev = false) end.
    apply ungrab_all_log; [apply (so_devs _ SG)|apply (so_logged _ SG)].
  - cbn [put_dev put_server us_server]. now apply clear_shape.
Qed.

Lemma start_sound during u : sane u -> proper (ds_world (us_dev u)) -> (forall w, during = Some w -> proper w) ->
  follows u -> has_configuration (us_server u) = true -> usound (start_session during u).
Proof.
  intros [S1 S2] P Du F HC. unfold Session.start_session. cbn [put_number us_dev us_server us_filters].
  destruct (negb (keyboard_ok (us_number u))); [split; [exact (conj S1 S2)|discriminate]|].
  match goal with |- context [session ?a ?b ?c ?d ?e ?f ?g ?h] => set (y := session a b c d e f g h) end.
  assert (SY : settled search (m_has_mouse_mappings (sv_stage (us_server u))) (us_filters u) y) by now apply settled_session.
  destruct (ds_over y) eqn:Ov; [split; [exact (conj S1 S2)|discriminate]|]. cbn [put_dev put_number us_server].
  set (s' := server_step clock send_ok (SDevices (descs_of y)) (us_server u)).
  assert (H1 : sv_sending s' = false) by now apply step_sending.
  assert (H2 : exited (us_server u) -> exited s') by now apply step_exited.
  assert (H3 : exited s' \/ shape (sv_stage s') = shape (sv_stage (us_server u))) by (apply step_shape; [exact S1|exact Logic.I]).
  split; [split; [exact H1|exact S2]|]. cbn [put_phase us_phase]. split.
  - unfold follows in *. cbn [put_phase put_server put_dev put_number us_read us_filters us_server].
    destruct (given (us_read u)) as [[fs m]|].
    + destruct F as [F1 F2]. split; [exact F1|]. destruct F2 as [F2|F2]; [left; auto|]. destruct H3 as [H3|H3]; [now left|right; congruence].
    + destruct F as [F2|F2]; [left; auto|]. destruct H3 as [H3|H3]; [now left|right; congruence].
  - split; [exact Ov|]. exists (m_has_mouse_mappings (sv_stage (us_server u))), (us_filters u). split; [exact SY|]. destruct H3 as [H3|H3]; [left; exact H3|right].
    split; [reflexivity|]. cbn [put_phase put_server put_dev put_number us_server]. split; [now rewrite !shape_mouse, H3|].
    apply has_configuration_shape in HC. congruence.
Qed.

(** ** A turn of the loop *)
Lemma turn_input_kept now i s : sv_sending s = false ->
  let s' := ServerLoop.turn_input clock send_ok (ServerLoop.Turn now i None []) s in
  sv_sending s' = false /\ (exited s -> exited s') /\ (exited s' \/ shape (sv_stage s') = shape (sv_stage s)).
Proof.
  intros Hs. unfold ServerLoop.turn_input. cbn [t_input t_now]. cbn zeta.
  set (s1 := match i with IKey e dev => _ | _ => s end).
  assert (A : sv_sending s1 = false /\ (exited s -> exited s1) /\ (exited s1 \/ shape (sv_stage s1) = shape (sv_stage s))).
  { unfold s1. destruct i as [|e dev|]; auto. destruct (N.eqb (ek e) k_none); auto.
    split; [now apply step_sending|]. split; [now apply step_exited|apply step_shape; [exact Hs|exact Logic.I]]. }
  destruct A as (A1 & A2 & A3). destruct (timeout_due now s1); [|auto].
  split; [now apply step_sending|]. split; [intro X; apply step_exited; auto|].
  destruct (step_shape clock send_ok SExpire s1 A1 Logic.I) as [B|B]; [now left|]. destruct A3 as [A3|A3]; [left; now apply step_exited|right; congruence].
Qed.
Lemma flush_kept now s : sv_sending s = false ->
  let s' := fst (if flush_due now s then flush_send_buffer clock send_ok s else (s, true)) in
  sv_sending s' = false /\ (exited s -> exited s') /\ (exited s' \/ shape (sv_stage s') = shape (sv_stage s)).
Proof.
  intros Hs. cbn zeta. destruct (flush_due now s); [|cbn; auto]. change (fst (flush_send_buffer clock send_ok s)) with (server_step clock send_ok SFlush s).
  split; [now apply step_sending|]. split; [now apply step_exited|apply step_shape; [exact Hs|exact Logic.I]].
Qed.

(** A change of the state of the server which keeps its configuration *)
Definition steady (s s' : server) : Prop :=
  sv_sending s' = false /\ (exited s -> exited s') /\ (exited s' \/ shape (sv_stage s') = shape (sv_stage s)).
Lemma steady_trans a b c : steady a b -> steady b c -> steady a c.
Proof.
  intros (A1 & A2 & A3) (B1 & B2 & B3). split; [exact B1|]. split; [auto|]. destruct B3 as [B3|B3]; [now left|].
  destruct A3 as [A3|A3]; [left; auto|right; congruence].
Qed.
Lemma steady_follows s' u : steady (us_server u) s' -> follows u -> follows (put_server s' u).
Proof.
  intros (A1 & A2 & A3) F. unfold follows in *. cbn [put_server us_read us_filters us_server]. destruct (given (us_read u)) as [[fs m]|].
  - destruct F as [F1 F2]. split; [exact F1|]. destruct F2 as [F2|F2]; [left; auto|]. destruct A3 as [A3|A3]; [now left|right; congruence].
  - destruct F as [F2|F2]; [left; auto|]. destruct A3 as [A3|A3]; [now left|right; congruence].
Qed.
Lemma steady_matched mice filters s' u : steady (us_server u) s' -> exited (us_server u) \/ matched mice filters u ->
  exited s' \/ matched mice filters (put_server s' u).
Proof.
  intros (A1 & A2 & A3) [M|(M1 & M2 & M3)]; [left; auto|]. destruct A3 as [A3|A3]; [now left|right].
  split; [exact M1|]. cbn [put_server us_server]. split; [now rewrite shape_mouse, A3, <- shape_mouse|congruence].
Qed.

Lemma read_updatable mice filters t u result g :
  settled search mice filters (us_dev u) -> devices_orderly (XTurn t) u ->
  let y := us_dev u in
  read_input_event (option_map (fun r => Ready (ds_pending y) (sl_client r) (sl_read r)) (ut_ready t)) (ds_grab y) = (result, g) ->
  forall hk co r v,
  settled search mice filters (update_devices search hk true co (ut_during t) (put_grab g y)) /\
  (forall i e, result = REvent i e -> settled search mice filters (put_grab g y)) /\
  (forall i e, result = REvent i e -> settled search mice filters (update_devices search hk true co (ut_during t) (put_read r v (put_grab g y)))) /\
  sound g /\ proper (ds_world y).
Proof.
  intros S0 O y Q hk co r v. pose proof S0 as S1. destruct S1 as [I1 Em Ef Mo P K KP Ch Fi].
  assert (SAME : g = ds_grab y -> settled search mice filters (update_devices search hk true co (ut_during t) (put_grab g y)) /\
    settled search mice filters (put_grab g y) /\ settled search mice filters (update_devices search hk true co (ut_during t) (put_read r v (put_grab g y)))).
  { intros ->. rewrite put_grab_same. split; [|split; [exact S0|]].
    - rewrite unchanged_update by exact Ch. exact S0.
    - rewrite unchanged_update by exact Ch. now apply settled_put_read. }
  destruct (ut_ready t) as [rd|]; cbn [option_map read_input_event] in Q.
  2:{ injection Q as <- <-. destruct (SAME eq_refl) as (X1 & X2 & X3). split; [exact X1|]. split; [intros; exact X2|]. split; [intros; exact X3|auto]. }
  change (gs_monitor (ds_grab y)) with (gs_monitor (ds_grab (us_dev u))) in Q. rewrite Mo in Q. cbn [andb sl_monitor sl_client] in Q.
  destruct (ds_pending y) eqn:Pe.
  - injection Q as <- <-. split; [|split; [discriminate|split; [discriminate|]]].
    + apply settled_update; cbn; auto.
      * destruct I1 as [A1 A2 A3 A4]. constructor; auto.
    + split; [destruct I1 as [A1 A2 A3 A4]; constructor; auto|exact P].
  - assert (Eg : g = ds_grab y) by (destruct (sl_client rd); now injection Q as _ <-).
    destruct (SAME Eg) as (X1 & X2 & X3). split; [exact X1|]. split; [intros; exact X2|]. split; [intros; exact X3|]. subst g. auto.
Qed.

Lemma turn_sound t u : sane u -> looping u -> devices_orderly (XTurn t) u -> well_sent (XTurn t) ->
  match main_turn t u with
  | (u', None) => us_phase u' = us_phase u /\ sane u' /\ looping u'
  | (u', Some _) => sane u' /\ sound (ds_grab (us_dev u')) /\ proper (ds_world (us_dev u'))
  end.
Proof.
  intros [S1 S2] (F & Ov & mice & filters & SY & M) O [_ G]. unfold Session.main_turn.
  destruct (shutdown u) eqn:SD; [destruct (settled_sound _ _ _ SY); split; [exact (conj S1 S2)|auto]|].
  cbn zeta.
  destruct (read_input_event _ (ds_grab (us_dev u))) as [result g] eqn:Q.
  pose proof (read_updatable mice filters t u result g SY O Q) as U. cbn zeta in U.
  set (n := pred (us_number u)).
  assert (REST : forall i y, sound (ds_grab y) -> proper (ds_world y) ->
     settled search mice filters (update_devices search (held_keys n) true (create_ok n) (ut_during t) y) ->
     match turn_rest search held_keys true create_ok clock send_ok t i y u with
     | (u', None) => us_phase u' = us_phase u /\ sane u' /\ looping u'
     | (u', Some _) => sane u' /\ sound (ds_grab (us_dev u')) /\ proper (ds_world (us_dev u'))
     end).
  { intros i y SG P US. unfold turn_rest. cbn zeta. fold n. clear U Q g result.
    destruct (turn_input_kept (ut_now t) i (us_server u) S1) as (A1 & A2 & A3). cbn zeta in *.
    set (s1 := ServerLoop.turn_input clock send_ok _ (us_server u)) in *.
    destruct (flush_kept (ut_now t) s1 A1) as (B1 & B2 & B3). cbn zeta in *.
    destruct (if flush_due (ut_now t) s1 then flush_send_buffer clock send_ok s1 else (s1, true)) as [s2 ok]. cbn [fst] in *.
    assert (ST : steady (us_server u) s2) by (eapply (steady_trans _ s1); repeat split; auto).
    clearbody s1. clear A1 A2 A3 B1 B2 B3 s1.
    destruct ok; cbn [negb]; [|split; [split; [apply ST|exact S2]|cbn; auto]].
    set (y' := update_devices _ _ _ _ _ y) in *. destruct (settled_sound _ _ _ US) as [SG' P'].
    destruct (ds_over y') eqn:Ov'; [split; [split; [apply ST|exact S2]|cbn; auto]|].
    cbn [put_dev put_server us_server].
    set (s3 := if gs_changed (ds_grab y) then server_step clock send_ok (SDevices (descs_of y')) s2 else s2).
    assert (ST3 : steady (us_server u) s3).
    { unfold s3. destruct (gs_changed (ds_grab y)); [|exact ST]. eapply steady_trans; [exact ST|]. destruct ST as [ST1 _].
      split; [now apply step_sending|]. split; [now apply step_exited|apply step_shape; [exact ST1|exact Logic.I]]. }
    match goal with |- context [on_umessages clock send_ok (ut_messages t) ?x] => set (u2 := x) end.
    assert (U2 : u2 = put_dev y' (put_server s3 u)) by (unfold u2, s3; destruct (gs_changed (ds_grab y)); reflexivity).
    assert (F2 : follows u2) by (rewrite U2; apply (steady_follows s3 u ST3 F)).
    assert (M2 : exited (us_server u2) \/ matched mice filters u2) by (rewrite U2; apply (steady_matched mice filters s3 u ST3 M)).
    assert (S3 : sv_sending (us_server u2) = false) by (rewrite U2; apply ST3).
    assert (R3 : read_filters u2) by (rewrite U2; exact S2).
    destruct (messages_kept clock send_ok (ut_messages t) u2 S3 R3 F2) as (K1 & K2 & K3 & K4 & K5 & K6 & K7 & K8). cbn zeta in *.
    assert (MM := messages_matched clock send_ok mice filters (ut_messages t) u2 G S3 R3). cbn zeta in MM.
    set (u3 := on_umessages clock send_ok (ut_messages t) u2) in *. 
    assert (D3 : us_dev u3 = y') by (rewrite K6, U2; reflexivity).
    assert (P3 : us_phase u3 = us_phase u) by (rewrite K5, U2; reflexivity).
    clearbody u3.
    assert (END : forall x, (sane u3 /\ sound (ds_grab (us_dev u3)) /\ proper (ds_world (us_dev u3))) /\
        (sane (put_filters_changed x u3) /\ sound (ds_grab (us_dev (put_filters_changed x u3))) /\ proper (ds_world (us_dev (put_filters_changed x u3))))).
    { intro x. cbn [put_filters_changed us_dev]. rewrite D3. split; (split; [split; auto|auto]). }
    destruct (ut_ok t); cbn [negb]; [|apply (END false)]. destruct (us_changed u3) eqn:CH; [apply (END false)|].
    destruct (has_configuration (us_server u3)) eqn:HC; cbn [negb]; [|apply (END false)].
    destruct (m_should_exit _); [apply (END false)|]. split; [exact P3|]. split; [split; auto|]. split; [exact K3|]. split; [now rewrite D3|].
    exists mice, filters. rewrite D3. split; [exact US|]. apply has_configuration_shape in HC.
    destruct MM as [X|[X|[X|X]]]; auto; [|congruence|congruence].
    destruct M2 as [M2|M2]; [now left|]. auto. }
  destruct (U (held_keys n) (create_ok n) (DTranslate 0 (ev0 k_none Up)) new_vdevices) as (_ & _ & _ & SG & P).
  destruct result as [| |i e|].
  - split; [exact (conj S1 S2)|auto].
  - apply REST; [exact SG|exact P|]. apply (U (held_keys n) (create_ok n) (DTranslate 0 (ev0 k_none Up)) new_vdevices).
  - destruct (to_key_event e) as [k|].
    + destruct (N.eqb (ek k) k_none).
      * apply REST; [exact SG|exact P|]. apply (U (held_keys n) (create_ok n) (DTranslate 0 (ev0 k_none Up)) new_vdevices).
      * apply REST; [exact SG|exact P|]. destruct (U (held_keys n) (create_ok n) (DTranslate i k) (ds_virtual (put_grab g (us_dev u)))) as (_ & _ & U3 & _).
        eapply U3. reflexivity.
    + split; [reflexivity|]. split; [exact (conj S1 S2)|]. split; [exact F|]. split; [exact Ov|]. exists mice, filters. split; [|exact M].
      apply settled_put_read. destruct (U (held_keys n) (create_ok n) (DTranslate 0 (ev0 k_none Up)) new_vdevices) as (_ & U2 & _).
      eapply U2. reflexivity.
  - split; [exact (conj S1 S2)|auto].
Qed.

(** ** All events *)
Lemma no_configuration s : has_configuration s = false -> shape (sv_stage s) = [].
Proof. unfold has_configuration, shape. destruct (m_stages (sv_stage s)); [reflexivity|discriminate]. Qed.

Lemma step_sound x u : usound u -> devices_orderly x u -> well_sent x -> usound (ustep x u).
Proof.
  intros U O W. destruct U as [[S1 S2] U]. unfold Session.ustep. destruct x as [a|l ok during|t| |w].
  - destruct (us_phase u) eqn:Ph; try (split; [exact (conj S1 S2)|rewrite Ph; exact U]).
    destruct a as [during| |]; [|split; [exact (conj S1 S2)|rewrite Ph; exact U]|split; [exact (conj S1 S2)|discriminate]].
    destruct U as (P & Fr & X). assert (F : follows (put_reads [] u)) by exact X. unfold Session.read_initial.
    destruct (has_configuration _) eqn:HC.
    + apply start_sound; auto. exact (conj S1 S2). destruct during as [w|]; [|discriminate]. intros v Hv. injection Hv as <-. exact O.
    + split; [exact (conj S1 S2)|]. split; [exact P|]. split; [exact Fr|]. split; [exact F|]. now apply no_configuration in HC.
  - destruct (us_phase u) eqn:Ph; try (split; [exact (conj S1 S2)|rewrite Ph; exact U]).
    destruct U as (P & Fr & F & Sh). destruct (messages_kept clock send_none l u S1 S2 F) as (K1 & K2 & K3 & K4 & K5 & K6 & K7 & K8). cbn zeta in *.
    destruct ok.
    + set (u' := on_umessages clock send_none l u) in *. clearbody u'. unfold Session.read_initial. destruct (has_configuration _) eqn:HC.
      * apply start_sound; auto. exact (conj K1 K2). now rewrite K6. destruct during as [w|]; [|discriminate]. intros v Hv. injection Hv as <-. exact O.
      * split; [exact (conj K1 K2)|]. cbn [put_phase us_phase us_dev]. rewrite K6. split; [exact P|]. split; [exact Fr|]. split; [exact K3|]. now apply no_configuration in HC.
    + destruct W as [W _]. rewrite (W eq_refl) in *. cbn [on_umessages fold_left] in *. apply next_sound; auto. exact (conj S1 S2).
  - destruct (us_phase u) eqn:Ph; try (split; [exact (conj S1 S2)|rewrite Ph; exact U]).
    pose proof (turn_sound t u (conj S1 S2) U O W) as T. destruct (main_turn t u) as [u' [r|]].
    + destruct T as (T1 & T2 & T3). now apply end_sound.
    + destruct T as (T1 & T2 & T3). split; [exact T2|]. rewrite T1, Ph. exact T3.
  - destruct (us_phase u) eqn:Ph.
    + split; [exact (conj S1 S2)|discriminate].
    + split; [exact (conj S1 S2)|discriminate].
    + split; [exact (conj S1 S2)|]. cbn [put_signal us_phase]. rewrite Ph. exact U.
    + split; [exact (conj S1 S2)|]. rewrite Ph. exact U.
  - assert (R : usound (put_dev (world_changes w (us_dev u)) u)).
    { split; [exact (conj S1 S2)|]. cbn [put_dev us_phase us_dev us_server]. destruct O as (O1 & O2 & O3). destruct (us_phase u).
      - destruct U as (P & Fr & X). split; [exact O1|]. split; [exact Fr|exact X].
      - destruct U as (P & Fr & X). split; [exact O1|]. split; [exact Fr|exact X].
      - destruct U as (F & Ov & mice & filters & SY & M). split; [exact F|]. split; [exact Ov|]. exists mice, filters. split; [|exact M].
        destruct SY as [I1 Em Ef Mo P K KP Ch Fi]. constructor; auto. cbn. rewrite Mo. discriminate.
      - exact U. }
    destruct (us_phase u); exact R.
Qed.

Lemma run_sound l : forall u, usound u -> sessions_orderly l u -> Forall well_sent l -> usound (urun l u).
Proof.
  induction l as [|x l IH]; intros u U O W; [exact U|]. destruct O as [O1 O2]. apply Forall_cons_iff in W. destruct W as [W1 W2].
  unfold Session.urun in *. cbn [fold_left]. apply IH; [now apply step_sound|exact O2|exact W2].
Qed.

Lemma init_sound w : proper w -> usound (init_usys true w).
Proof.
  intro P. split; [split; [reflexivity|exists []; reflexivity]|]. cbn [init_usys us_phase us_dev us_server]. split; [exact P|].
  split; [split; [reflexivity|intro dev; reflexivity]|]. right. reflexivity.
Qed.

(** ** No session ends without need *)
Definition unflagged (u : usys) : Prop := us_changed u = false.

Lemma message_flag send m u : ~ sends_config m -> us_changed (on_umessage clock send m u) = us_changed u.
Proof. intro H. destruct m as [f st|m]; [exfalso; apply H; exact Logic.I|]. destruct m; reflexivity. Qed.
Lemma messages_flag send l : forall u, (forall m, In m l -> ~ sends_config m) -> us_changed (on_umessages clock send l u) = us_changed u.
Proof.
  induction l as [|m l IH]; intros u H; [reflexivity|]. unfold on_umessages in *. cbn [fold_left]. rewrite IH by (intros x Hx; apply H; now right).
  rewrite message_flag; [reflexivity|]. apply H. now left.
Qed.
Lemma messages_exited send l : forall u, sv_sending (us_server u) = false -> exited (us_server u) -> exited (us_server (on_umessages clock send l u)).
Proof.
  induction l as [|m l IH]; intros u Hs X; [exact X|]. unfold on_umessages in *. cbn [fold_left]. destruct m as [f s|m].
  - destruct (config_step clock send f s u Hs) as (D0 & D1 & _). apply IH; auto.
  - destruct (other_step clock send (UOther m) u (fun x => x) Hs) as (D0 & D1 & _). apply IH; auto.
Qed.
(** While there is no configuration the first one sets no flag. *)
Lemma first_flag send : forall l u, one_config l -> sv_sending (us_server u) = false -> shape (sv_stage (us_server u)) = [] ->
  exited (us_server (on_umessages clock send l u)) \/ us_changed (on_umessages clock send l u) = us_changed u.
Proof.
  induction l as [|m l IH]; intros u O Hs Sh; [right; reflexivity|].
  assert (O' : one_config l) by (intros a f s b f' s' Q; apply (O (m :: a) f s b f' s'); now rewrite Q).
  change (on_umessages clock send (m :: l) u) with (on_umessages clock send l (on_umessage clock send m (put_reads (us_read u ++ [m]) u))).
  destruct m as [f st|m].
  - right. rewrite messages_flag.
    + cbn [on_umessage put_server put_filters put_filters_changed us_changed put_reads us_server].
      assert (HC : has_configuration (us_server u) = false).
      { unfold has_configuration. apply shape_empty in Sh. now rewrite Sh. }
      rewrite HC. cbn. now rewrite !orb_false_r.
    + intros [f' s'|m'] Hm C; [|exact C]. apply (O [] f st l f' s' eq_refl Hm).
  - destruct (other_step clock send (UOther m) u (fun x => x) Hs) as (C0 & C1 & C2 & C3 & C4 & C5).
    set (u1 := on_umessage clock send (UOther m) (put_reads (us_read u ++ [UOther m]) u)) in *. destruct C2 as [C2|C2].
    + left. now apply messages_exited.
    + rewrite <- C4. apply IH; [exact O'|exact C0|congruence].
Qed.

(** Configurations with the same filters and the same use of the mouse set no flag. *)
Definition alike (mice : bool) (filters : list (filter * bool)) (m : umessage) : Prop :=
  match m with
  | UConfig fs st => map read_grab_filter fs = filters /\ m_has_mouse_mappings st = mice /\ m_stages st <> []
  | UOther _ => True
  end.
Lemma same_filters_refl : forall l, same_filters l l = true.
Proof.
  induction l as [|[[s r i] d] l IH]; [reflexivity|]. cbn [same_filters]. rewrite IH, andb_true_r. unfold same_filter. cbn [fst snd f_string f_invert].
  now rewrite !eqb_reflx, (proj2 (text_eqb_eq s s) eq_refl).
Qed.
Lemma alike_flag send mice filters : forall l u, Forall (alike mice filters) l -> sv_sending (us_server u) = false -> matched mice filters u ->
  let u' := on_umessages clock send l u in
  exited (us_server u') \/ (us_changed u' = us_changed u /\ matched mice filters u').
Proof.
  induction l as [|m l IH]; intros u A Hs M; [right; split; [reflexivity|exact M]|]. cbn zeta in *. apply Forall_cons_iff in A. destruct A as [A1 A2].
  change (on_umessages clock send (m :: l) u) with (on_umessages clock send l (on_umessage clock send m (put_reads (us_read u ++ [m]) u))).
  destruct M as (M1 & M2 & M3). destruct m as [f st|m].
  - destruct A1 as (B1 & B2 & B3). destruct (config_step clock send f st u Hs) as (C0 & C1 & C2 & C3 & C4).
    assert (FL : us_changed (on_umessage clock send (UConfig f st) (put_reads (us_read u ++ [UConfig f st]) u)) = us_changed u).
    { cbn [on_umessage put_server put_filters put_filters_changed us_changed put_reads us_server us_filters]. rewrite B1, M1, same_filters_refl, B2, M2, eqb_reflx.
      cbn [negb]. now rewrite andb_false_r, !orb_false_r. }
    set (u1 := on_umessage _ _ _ _) in *. destruct C2 as [C2|C2]; [left; now apply messages_exited|].
    rewrite <- FL. apply IH; [exact A2|exact C0|]. split; [congruence|]. split; [now rewrite shape_mouse, C2, <- shape_mouse|].
    rewrite C2. intro X. apply shape_empty in X. contradiction.
  - destruct (other_step clock send (UOther m) u (fun x => x) Hs) as (C0 & C1 & C2 & C3 & C4 & C5).
    set (u1 := on_umessage _ _ _ _) in *. destruct C2 as [C2|C2]; [left; now apply messages_exited|].
    rewrite <- C4. apply IH; [exact A2|exact C0|]. split; [congruence|]. split; [now rewrite shape_mouse, C2, <- shape_mouse|congruence].
Qed.

(** The flag is set only within a turn, when every read brings one configuration. *)
Lemma turn_flag t u : us_changed u = false -> (ut_ok t = false -> ut_messages t = []) ->
  us_changed (fst (main_turn t u)) = false.
Proof.
  intros Hf W. unfold Session.main_turn. destruct (shutdown u); [exact Hf|]. cbn zeta. destruct (read_input_event _ _) as [result g].
  assert (REST : forall i y, us_changed (fst (turn_rest search held_keys true create_ok clock send_ok t i y u)) = false).
  { intros i y. unfold turn_rest. cbn zeta. destruct (if flush_due _ _ then _ else _) as [s2 ok]. destruct ok; cbn [negb]; [|exact Hf].
    destruct (ds_over _); [exact Hf|]. match goal with |- context [on_umessages clock send_ok (ut_messages t) ?x] => set (u2 := x) end.
    assert (F2 : us_changed u2 = false) by (unfold u2; destruct (gs_changed (ds_grab y)); exact Hf). clearbody u2.
    destruct (ut_ok t) eqn:Ok; cbn [negb]; [|rewrite (W eq_refl); exact F2].
    destruct (us_changed (on_umessages clock send_ok (ut_messages t) u2)) eqn:CH; [reflexivity|].
    destruct (negb _); [exact CH|]. destruct (m_should_exit _); exact CH. }
  destruct result as [| |i e|]; auto. destruct (to_key_event e) as [k|]; [|exact Hf]. destruct (N.eqb _ _); auto.
Qed.

Lemma start_flag during u : us_changed (start_session during u) = us_changed u.
Proof. unfold Session.start_session. cbn zeta. destruct (negb _); [reflexivity|]. destruct (ds_over _); reflexivity. Qed.
Lemma initial_flag during u : us_changed (read_initial search held_keys true create_ok keyboard_ok clock send_ok during u) = us_changed u.
Proof. unfold read_initial. destruct (has_configuration _); [apply start_flag|reflexivity]. Qed.

(** An exit stays. *)
Lemma start_exited during u : sv_sending (us_server u) = false -> exited (us_server u) -> exited (us_server (start_session during u)).
Proof.
  intros Hs X. unfold Session.start_session. cbn zeta. destruct (negb _); [exact X|]. destruct (ds_over _); [exact X|]. now apply step_exited.
Qed.
Lemma initial_exited during u : sv_sending (us_server u) = false -> exited (us_server u) ->
  exited (us_server (read_initial search held_keys true create_ok keyboard_ok clock send_ok during u)).
Proof. intros Hs X. unfold read_initial. destruct (has_configuration _); [now apply start_exited|exact X]. Qed.
Lemma turn_exited t u : sv_sending (us_server u) = false -> exited (us_server u) ->
  exited (us_server (fst (main_turn t u))).
Proof. intros Hs X. unfold Session.main_turn. rewrite (exited_shutdown u X). exact X. Qed.
Lemma step_keeps_exit x u : usound u -> exited (us_server u) -> exited (us_server (ustep x u)).
Proof.
  intros [[Hs _] _] X. unfold Session.ustep. destruct (us_phase u), x as [[during| |]|l ok during|t| |w]; try exact X.
  - now apply initial_exited.
  - assert (S' : sv_sending (us_server (on_umessages clock send_none l u)) = false /\ exited (us_server (on_umessages clock send_none l u))).
    { split; [|now apply messages_exited]. clear X. revert u Hs. induction l as [|m l IH]; intros u Hs; [exact Hs|].
      change (on_umessages clock send_none (m :: l) u) with (on_umessages clock send_none l (on_umessage clock send_none m (put_reads (us_read u ++ [m]) u))).
      apply IH. destruct m as [f s|m]; [now destruct (config_step clock send_none f s u Hs)|now destruct (other_step clock send_none (UOther m) u (fun x => x) Hs)]. }
    destruct S' as [S1 S2]. destruct ok; [now apply initial_exited|exact S2].
  - unfold Session.main_turn. rewrite (exited_shutdown u X). unfold Session.end_session, next_connection. cbn [put_phase put_dev put_server put_signal us_server]. now apply step_exited.
Qed.

Lemma step_flag x u : usound u -> devices_orderly x u -> well_sent x -> single x ->
  exited (us_server u) \/ us_changed u = false -> exited (us_server (ustep x u)) \/ us_changed (ustep x u) = false.
Proof.
  intros U O W Si [X|Hf]; [left; now apply step_keeps_exit|]. destruct U as [[Hs R] U]. unfold Session.ustep.
  destruct (us_phase u) eqn:Ph, x as [[during| |]|l ok during|t| |w]; try (right; exact Hf).
  - right. rewrite initial_flag. exact Hf.
  - destruct U as (P & Fr & F & Sh). destruct (messages_kept clock send_none l u Hs R F) as (K1 & _). cbn zeta in *.
    destruct (first_flag send_none l u Si Hs Sh) as [Y|Y].
    + left. destruct ok; [now apply initial_exited|exact Y].
    + right. destruct ok; [rewrite initial_flag|unfold next_connection; cbn [put_phase us_changed]]; congruence.
  - right. pose proof (turn_flag t u Hf (proj1 W)) as T. destruct (main_turn t u) as [u' [r|]]; exact T.
Qed.
Lemma run_flag l : forall u, usound u -> sessions_orderly l u -> Forall well_sent l -> Forall single l ->
  exited (us_server u) \/ us_changed u = false -> exited (us_server (urun l u)) \/ us_changed (urun l u) = false.
Proof.
  induction l as [|x l IH]; intros u U O W Si H; [exact H|]. destruct O as [O1 O2]. apply Forall_cons_iff in W, Si. destruct W as [W1 W2], Si as [Si1 Si2].
  unfold Session.urun in *. cbn [fold_left]. apply IH; auto; [now apply step_sound|now apply step_flag].
Qed.

(** Sending succeeds when every key can be sent. *)
Lemma flush_loop_ok : (forall n, send_ok n = true) -> forall left i s, snd (flush_loop clock send_ok left i s) = true.
Proof.
  intro H. induction left as [|left IH]; intros i s; cbn [flush_loop]; generalize (skipn i (sv_buf s)); intro r; revert i s;
  (induction r as [|e r IHr]; intros i s; [reflexivity|]);
  (destruct (_ && _); [apply IHr|]; destruct (is_action_key _); [apply IHr|]; destruct (is_virtual_key _);
   [destruct (kstate_eqb _ _); [try apply IHr; apply IH|apply IHr]|]; destruct (N.eqb _ _); [reflexivity|]; rewrite H; apply IHr).
Qed.
Lemma flush_ok : (forall n, send_ok n = true) -> forall s, snd (flush_send_buffer clock send_ok s) = true.
Proof.
  intros H s. unfold flush_send_buffer. destruct (sv_sending s); [reflexivity|].
  match goal with |- context [flush_loop clock send_ok 9 0 ?x] => pose proof (flush_loop_ok H 9 0%nat x) as Q; destruct (flush_loop clock send_ok 9 0 x) as [[s' i] ok] end. exact Q.
Qed.

(** A turn in which a client sends such configurations goes on. *)
Lemma turn_kept t u r mice filters : (forall n, send_ok n = true) -> sane u -> follows u -> ds_over (us_dev u) = false ->
  settled search mice filters (us_dev u) -> matched mice filters u -> us_changed u = false -> shutdown u = false ->
  ds_pending (us_dev u) = false -> ut_ready t = Some r -> sl_client r = true -> ut_ok t = true -> Forall (alike mice filters) (ut_messages t) ->
  let '(u', o) := main_turn t u in
  sv_sending (us_server u') = false /\
  (shutdown (put_signal (match o with Some false => true | _ => us_signal u' end) u') = true \/ (o = None /\ us_number u' = us_number u /\ us_phase u' = us_phase u /\ us_dev u' = us_dev u)).
Proof.
  intros SK [Hs R] F Ov SY M Hf SD Pe Rd Cl Ok A. unfold Session.main_turn. rewrite SD, Rd. cbn zeta. cbn [option_map read_input_event sl_monitor sl_client].
  rewrite (se_monitor _ _ _ _ SY), Pe, Cl. cbn [andb]. rewrite put_grab_same. unfold turn_rest. cbn zeta.
  destruct (turn_input_kept (ut_now t) INone (us_server u) Hs) as (A1 & A2 & A3). cbn zeta in *.
  set (s1 := ServerLoop.turn_input clock send_ok _ (us_server u)) in *.
  destruct (flush_kept (ut_now t) s1 A1) as (B1 & B2 & B3). cbn zeta in *.
  assert (OK : snd (if flush_due (ut_now t) s1 then flush_send_buffer clock send_ok s1 else (s1, true)) = true) by (destruct (flush_due _ _); [now apply flush_ok|reflexivity]).
  destruct (if flush_due (ut_now t) s1 then flush_send_buffer clock send_ok s1 else (s1, true)) as [s2 ok]. cbn [fst snd] in *. subst ok. cbn [negb].
  rewrite unchanged_update by exact (se_changed _ _ _ _ SY). rewrite Ov, (se_changed _ _ _ _ SY).
  assert (ST : steady (us_server u) s2) by (eapply (steady_trans _ s1); repeat split; auto).
  match goal with |- context [on_umessages clock send_ok (ut_messages t) ?x] => set (u2 := x) end.
  assert (U2 : u2 = put_dev (us_dev u) (put_server s2 u)) by reflexivity.
  assert (F2 : follows u2) by (rewrite U2; apply (steady_follows s2 u ST F)).
  assert (M2 : exited (us_server u2) \/ matched mice filters u2) by (rewrite U2; apply (steady_matched mice filters s2 u ST); now right).
  assert (S2 : sv_sending (us_server u2) = false) by (rewrite U2; apply ST).
  assert (R2 : read_filters u2) by (rewrite U2; exact R).
  destruct (messages_kept clock send_ok (ut_messages t) u2 S2 R2 F2) as (K1 & K2 & K3 & K4 & K5 & K6 & K7 & K8). cbn zeta in *.
  assert (E3 : exited (us_server (on_umessages clock send_ok (ut_messages t) u2)) \/
     (us_changed (on_umessages clock send_ok (ut_messages t) u2) = us_changed u2 /\ matched mice filters (on_umessages clock send_ok (ut_messages t) u2))).
  { destruct M2 as [M2|M2]; [left; now apply messages_exited|]. now apply alike_flag. }
  set (u3 := on_umessages clock send_ok (ut_messages t) u2) in *. rewrite Ok. cbn [negb].
  assert (SH : forall b v, us_server v = us_server u3 -> exited (us_server u3) -> shutdown (put_signal b v) = true).
  { intros b v Q X. apply exited_shutdown. cbn [put_signal us_server]. now rewrite Q. }
  destruct E3 as [X|[E3 (M4 & M5 & M6)]].
  - destruct (us_changed u3); [split; [exact K1|left; apply (SH _ (put_filters_changed false u3)); auto]|]. destruct (negb _); [split; [exact K1|left; now apply SH]|]. destruct (m_should_exit _); (split; [exact K1|left; now apply SH]).
  - assert (HC : has_configuration (us_server u3) = true) by now apply has_configuration_shape.
    assert (CH : us_changed u3 = false) by (rewrite E3, U2; exact Hf).
    rewrite CH, HC. cbn [negb]. destruct (m_should_exit _); [split; [exact K1|left; reflexivity]|split; [exact K1|right]]. split; [reflexivity|].
    rewrite K5, K6, K8, U2. auto.
Qed.
End Run.
