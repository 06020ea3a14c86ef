(** The sessions of the server: what keeps the devices which are grabbed in step with the
    configuration. *)
From Coq Require Import String Ascii List Arith NArith ZArith Bool Lia.
From Verif Require Import Base Key Text Match Stage MultiStage MultiProofs Server ServerLoop ServerProofs ServerReset Config Client ClientSpec ClientProofs Device.
From Verif Require Import Grab GrabSpec GrabProofs GrabRun GrabAlign Session SessionSpec.
Import ListNotations.
Local Open Scope Z_scope.

(** ** Configurations *)

(** What matters here of a configuration *)
Definition shape (m : mstage) : list bool := map (fun st => has_mouse_mappings (fst st)) (m_stages m).

Lemma shape_mouse m : m_has_mouse_mappings m = existsb (fun b => b) (shape m).
Proof. unfold m_has_mouse_mappings, shape. induction (m_stages m) as [|x l IH]; [reflexivity|]. cbn. now rewrite IH. Qed.
Lemma shape_empty m : shape m = [] <-> m_stages m = [].
Proof. unfold shape. split; [apply map_eq_nil|]. now intros ->. Qed.

Lemma fst_shape (a b : list stage) : map fst a = map fst b ->
  map (fun st => has_mouse_mappings (fst st)) a = map (fun st => has_mouse_mappings (fst st)) b.
Proof. intro H. rewrite <- (map_map fst has_mouse_mappings), <- (map_map fst has_mouse_mappings b). now rewrite H. Qed.

Lemma update_loop_fst e dev : forall l first buf, map fst (fst (MultiStage.update_loop first e dev buf l)) = map fst l.
Proof.
  induction l as [|[cs s] l IH]; intros first buf; [reflexivity|]. cbn [MultiStage.update_loop].
  match goal with |- context [feed_stage ?a ?b ?c ?d ?e] => destruct (feed_stage a b c d e) as [s' out] end.
  specialize (IH false out). destruct (MultiStage.update_loop false e dev out l) as [r' out']. cbn [fst map] in *. now rewrite IH.
Qed.
Lemma shape_update e dev m : shape (fst (m_update e dev m)) = shape m.
Proof.
  unfold m_update. pose proof (update_loop_fst e dev (m_stages m) true (m_buf m ++ [e])) as H.
  destruct (MultiStage.update_loop _ _ _ _ _) as [st out]. cbn [fst] in *. now apply fst_shape.
Qed.
Lemma shape_contexts l m m' out : m_set_active_client_contexts l m = (m', out) -> shape m' = shape m.
Proof.
  unfold m_set_active_client_contexts. destruct (contexts_loop l 0 (m_buf m) (m_stages m)) as [st o] eqn:Q.
  intro H. injection H as <- <-. apply fst_shape. cbn [m_stages].
  revert Q. generalize 0, (m_buf m), st, o. induction (m_stages m) as [|[cs s] r IH]; intros off buf st' o' Q; cbn [contexts_loop] in Q.
  - injection Q as <- <-. reflexivity.
  - destruct (feed_stage _ _ _ _ _) as [s1 o1]. destruct (set_active_client_contexts _ _ _) as [s2 o2].
    destruct (contexts_loop l _ _ r) as [r' o3] eqn:Q'. injection Q as <- <-. cbn [map fst]. f_equal. eapply IH. exact Q'.
Qed.
Lemma mouse_devices ds cs : has_mouse_mappings (evaluate_device_filters ds cs) = has_mouse_mappings cs.
Proof. unfold has_mouse_mappings, evaluate_device_filters. induction cs as [|c cs IH]; [reflexivity|]. cbn [map existsb cx_mods cx_inputs]. now rewrite IH. Qed.
Lemma shape_devices ds m : shape (m_evaluate_device_filters ds m) = shape m.
Proof.
  unfold shape, m_evaluate_device_filters. cbn [m_stages]. rewrite map_map. apply map_ext. intros st. apply mouse_devices.
Qed.
Lemma shape_validate f m : shape (m_validate_state f m) = shape m.
Proof. unfold shape, m_validate_state. destruct (m_stages m) as [|[cs s] r] eqn:Q; [now rewrite Q|reflexivity]. Qed.
Lemma shape_reuse m : shape (m_reuse_buffer m) = shape m.
Proof. reflexivity. Qed.

(** ** The state of the server *)
Section Server.
Variable clock : nat -> Z.
Variable send_ok : nat -> bool.

Definition keeps_config (l : label) : Prop := match l with LClear _ => False | _ => True end.

Lemma micro_shape x l y : micro clock send_ok x l y -> keeps_config l -> ~ is_exit l -> shape (sv_stage (snd y)) = shape (sv_stage (snd x)).
Proof.
  intros H K X. destruct H; cbn [snd] in *; try (exfalso; apply X; exact Logic.I); try contradiction; try reflexivity.
  - destruct H as [Es _ _ _ _]. now rewrite Es.
  - destruct (m_update e dev (sv_stage s)) as [m out] eqn:Q. destruct (feed_spec clock _ _ _ _ _ Q) as (Es & _). rewrite Es.
    pose proof (shape_update e dev (sv_stage s)) as R. now rewrite Q in R.
  - destruct (push_all l s) as (Es & _). now rewrite Es.
  - unfold release_all_keys. match goal with |- context [send_key_sequence ?l s] => destruct (push_all l s) as (Es & _) end. now rewrite Es.
  - cbn [put_stage sv_stage]. rewrite shape_reuse. eapply shape_contexts. exact H.
  - cbn [put_stage sv_stage]. apply shape_devices.
  - cbn [put_stage sv_stage]. apply shape_validate.
Qed.
Lemma steps_shape x ls y : steps clock send_ok x ls y -> Forall keeps_config ls -> ~ Exists is_exit ls ->
  shape (sv_stage (snd y)) = shape (sv_stage (snd x)).
Proof.
  intro H. induction H as [x|x l y ls z H1 H2 IH]; intros K X; [reflexivity|]. apply Forall_cons_iff in K. destruct K as [K1 K2].
  rewrite IH; [|exact K2|intro Y; apply X; now right]. eapply micro_shape; eauto.
Qed.

Lemma closed_keeps : closed keeps_config.
Proof. constructor; intros; exact Logic.I. Qed.
Lemma exit_dec : forall l, {is_exit l} + {~ is_exit l}.
Proof. intros []; try (right; intros []; fail); left; exact Logic.I. Qed.

Definition exited (s : server) : Prop := In EExit (sv_trace s).

Lemma runs_shape s s' : runs clock send_ok keeps_config None s s' -> exited s' \/ shape (sv_stage s') = shape (sv_stage s).
Proof.
  intros (ls & H1 & H2 & H3). destruct (Exists_dec is_exit ls exit_dec) as [G|G]; [left; exact (H3 G)|].
  right. apply (steps_shape _ _ _ H1 H2 G).
Qed.

(** Steps which bring no configuration *)
Definition no_config (x : step) : Prop :=
  match x with SMessage (MConfig _) | SReset => False | _ => True end.
Lemma no_config_ok x : no_config x -> step_ok keeps_config x.
Proof. destruct x as [e dev| | |ds|[[m|]|l|k st|f| |l|l]| ]; cbn; try tauto. intros _. apply Forall_forall. intros; exact Logic.I. Qed.

Lemma step_shape x s : sv_sending s = false -> no_config x ->
  exited (server_step clock send_ok x s) \/ shape (sv_stage (server_step clock send_ok x s)) = shape (sv_stage s).
Proof.
  intros Hs N. apply runs_shape. apply (step_runs clock send_ok keeps_config closed_keeps Logic.I); [exact Hs|now apply no_config_ok].
Qed.

Lemma reset_shape m s : sv_sending s = false ->
  exited (reset_configuration clock send_ok (Some m) s) \/ shape (sv_stage (reset_configuration clock send_ok (Some m) s)) = shape m.
Proof.
  intro Hs. unfold reset_configuration. set (s1 := fst (flush_send_buffer clock send_ok (release_all_keys s))).
  assert (H1 : sv_sending s1 = false).
  { unfold s1. apply (step_sending clock send_ok SFlush). unfold release_all_keys.
    match goal with |- context [send_key_sequence ?l s] => destruct (push_all l s) as (_ & _ & _ & Es & _) end. now rewrite Es. }
  assert (H2 : sv_sending (clear_configuration m s1) = false) by exact H1.
  change (shape m) with (shape (sv_stage (clear_configuration m s1))).
  apply runs_shape. apply (filters_runs clock send_ok keeps_config closed_keeps Logic.I). exact H2.
Qed.
Lemma config_shape m s : sv_sending s = false ->
  exited (server_step clock send_ok (SMessage (MConfig (Some m))) s) \/
  shape (sv_stage (server_step clock send_ok (SMessage (MConfig (Some m))) s)) = shape m.
Proof. apply reset_shape. Qed.
Lemma clear_shape s : sv_sending s = false ->
  exited (server_step clock send_ok SReset s) \/ shape (sv_stage (server_step clock send_ok SReset s)) = [].
Proof. intro Hs. apply (reset_shape (MS [] [] []) s Hs). Qed.

Lemma step_exited x s : sv_sending s = false -> exited s -> exited (server_step clock send_ok x s).
Proof. intros Hs H. destruct (step_trace clock send_ok x s Hs) as (new & Q). unfold exited. rewrite Q. apply in_or_app. now right. Qed.
End Server.

Lemma exited_iff s : existsb is_exit_effect (sv_trace s) = true <-> exited s.
Proof.
  unfold exited. rewrite existsb_exists. split.
  - intros (x & H1 & H2). destruct x; try discriminate H2. exact H1.
  - intro H. exists EExit. auto.
Qed.
Lemma exited_shutdown u : exited (us_server u) -> shutdown u = true.
Proof. intro H. unfold shutdown. apply exited_iff in H. rewrite H. apply orb_true_r. Qed.

Lemma has_configuration_shape s : has_configuration s = true <-> shape (sv_stage s) <> [].
Proof. unfold has_configuration, shape. destruct (m_stages (sv_stage s)); cbn; split; intro H; try discriminate; congruence. Qed.

(** ** Messages *)
Lemma same_filters_eq : forall a b, same_filters (map read_grab_filter a) (map read_grab_filter b) = true -> map read_grab_filter a = map read_grab_filter b.
Proof.
  induction a as [|[[s i] d] a IH]; intros [|[[s' i'] d'] b] H; try discriminate H; [reflexivity|]. cbn [map same_filters] in H. apply andb_prop in H. destruct H as [H1 H2].
  unfold same_filter in H1. cbn [read_grab_filter fst snd f_string f_invert] in H1. apply andb_prop in H1. destruct H1 as [H1 H3].
  apply andb_prop in H1. destruct H1 as [H1 H4]. apply text_eqb_eq in H1. apply eqb_prop in H3, H4. subst. cbn [map]. f_equal. now apply IH.
Qed.

Definition read_filters (u : usys) : Prop := exists fs, us_filters u = map read_grab_filter fs.
(** The configuration in effect is the one the client has sent. *)
Definition follows (u : usys) : Prop :=
  match given (us_read u) with
  | None => exited (us_server u) \/ shape (sv_stage (us_server u)) = []
  | Some (fs, m) => us_filters u = map read_grab_filter fs /\ (exited (us_server u) \/ shape (sv_stage (us_server u)) = shape m)
  end.

Definition sends_config (m : umessage) : Prop := match m with UConfig _ _ => True | _ => False end.
Lemma given_snoc l m : given (l ++ [m]) = given_by (given l) m.
Proof. unfold given. now rewrite fold_left_app. Qed.

Section Messages.
Variable clock : nat -> Z.
Variable send : nat -> bool.
Notation handle m u := (on_umessage clock send m (put_reads (us_read u ++ [m]) u)).

Lemma other_step m u : ~ sends_config m -> sv_sending (us_server u) = false ->
  sv_sending (us_server (handle m u)) = false /\
  (exited (us_server u) -> exited (us_server (handle m u))) /\
  (exited (us_server (handle m u)) \/ shape (sv_stage (us_server (handle m u))) = shape (sv_stage (us_server u))) /\
  us_filters (handle m u) = us_filters u /\ us_changed (handle m u) = us_changed u /\ us_read (handle m u) = us_read u ++ [m].
Proof.
  intros NC Hs. destruct m as [fs st|m]; [exfalso; apply NC; exact Logic.I|]. cbn [on_umessage].
  destruct m as [c|l|k st|f| |l|l]; cbn [put_server put_reads us_server us_filters us_changed us_read]; auto 10;
    (split; [now apply step_sending|]; split; [now apply step_exited|]; split; [apply step_shape; [exact Hs|exact Logic.I]|auto]).
Qed.
Lemma config_step fs m u : sv_sending (us_server u) = false ->
  sv_sending (us_server (handle (UConfig fs m) u)) = false /\
  (exited (us_server u) -> exited (us_server (handle (UConfig fs m) u))) /\
  (exited (us_server (handle (UConfig fs m) u)) \/ shape (sv_stage (us_server (handle (UConfig fs m) u))) = shape m) /\
  us_filters (handle (UConfig fs m) u) = map read_grab_filter fs /\ us_read (handle (UConfig fs m) u) = us_read u ++ [UConfig fs m].
Proof.
  intros Hs. cbn [on_umessage put_server put_filters put_filters_changed put_reads us_server us_filters us_read].
  split; [now apply step_sending|]. split; [now apply step_exited|]. split; [now apply config_shape|]. auto.
Qed.

Lemma follows_message m u : sv_sending (us_server u) = false -> follows u -> follows (handle m u).
Proof.
  intros Hs F. unfold follows in *. destruct m as [fs st|m].
  - destruct (config_step fs st u Hs) as (_ & _ & C1 & C2 & C3). rewrite C3, given_snoc. cbn [given_by]. auto.
  - destruct (other_step (UOther m) u (fun x => x) Hs) as (_ & C0 & C1 & C2 & _ & C3). rewrite C3, given_snoc. cbn [given_by].
    destruct (given (us_read u)) as [[fs st]|].
    + destruct F as [F1 F2]. split; [congruence|]. destruct F2 as [F2|F2]; [left; auto|]. destruct C1 as [C1|C1]; [now left|right; congruence].
    + destruct F as [F2|F2]; [left; auto|]. destruct C1 as [C1|C1]; [now left|right; congruence].
Qed.

(** The devices were grabbed for the configuration in effect. *)
Definition matched (mice : bool) (filters : list (filter * bool)) (u : usys) : Prop :=
  filters = us_filters u /\ mice = m_has_mouse_mappings (sv_stage (us_server u)) /\ shape (sv_stage (us_server u)) <> [].

Lemma messages_kept : forall l u, sv_sending (us_server u) = false -> read_filters u -> follows u ->
  let u' := on_umessages clock send l u in
  sv_sending (us_server u') = false /\ read_filters u' /\ follows u' /\ (exited (us_server u) -> exited (us_server u')) /\
  us_phase u' = us_phase u /\ us_dev u' = us_dev u /\ us_signal u' = us_signal u /\ us_number u' = us_number u.
Proof.
  induction l as [|m l IH]; intros u Hs R F; [cbn; auto 10|]. cbn zeta in *. unfold on_umessages in *. cbn [fold_left].
  assert (A : sv_sending (us_server (handle m u)) = false /\ read_filters (handle m u) /\ (exited (us_server u) -> exited (us_server (handle m u)))).
  { destruct m as [fs st|m].
    - destruct (config_step fs st u Hs) as (C0 & C1 & _ & C2 & _). split; [exact C0|]. split; [exists fs; exact C2|exact C1].
    - destruct (other_step (UOther m) u (fun x => x) Hs) as (C0 & C1 & _ & C2 & _). split; [exact C0|]. split; [|exact C1].
      destruct R as (fs & R). exists fs. congruence. }
  destruct A as (A1 & A2 & A3). destruct (IH (handle m u) A1 A2 (follows_message m u Hs F)) as (I1 & I2 & I3 & I4 & I5 & I6 & I7 & I8).
  repeat (split; [now auto|]).
  rewrite I5, I6, I7, I8. destruct m as [fs st|[c|x|k st|f| |x|x]]; cbn; auto.
Qed.

Lemma messages_matched mice filters : forall l u, no_gap l -> sv_sending (us_server u) = false -> read_filters u ->
  exited (us_server u) \/ us_changed u = true \/ (shape (sv_stage (us_server u)) = [] /\ forall m, In m l -> ~ sends_config m) \/ matched mice filters u ->
  let u' := on_umessages clock send l u in
  exited (us_server u') \/ us_changed u' = true \/ shape (sv_stage (us_server u')) = [] \/ matched mice filters u'.
Proof.
  induction l as [|m l IH]; intros u G Hs R M; [cbn; destruct M as [M|[M|[[M _]|M]]]; auto|]. cbn zeta in *. unfold on_umessages in *. cbn [fold_left].
  destruct m as [fs st|m].
  - destruct (config_step fs st u Hs) as (C0 & C1 & C2 & C3 & C4). destruct G as [G1 G2]. apply IH; [exact G2|exact C0|exists fs; exact C3|].
    destruct M as [M|[M|[[M1 M2]|(M1 & M2 & M3)]]].
    + left. auto.
    + right. left. cbn. now rewrite M.
    + exfalso. apply (M2 (UConfig fs st)); [now left|exact Logic.I].
    + destruct C2 as [C2|C2]; [now left|right].
      assert (HC : has_configuration (us_server u) = true) by now apply has_configuration_shape.
      destruct (same_filters (us_filters u) (map read_grab_filter fs)) eqn:SF.
      2:{ left. cbn [on_umessage put_server put_filters put_filters_changed put_reads us_changed us_server us_filters]. rewrite HC, SF. cbn. now rewrite orb_true_r. }
      destruct (Bool.eqb (m_has_mouse_mappings (sv_stage (us_server u))) (m_has_mouse_mappings st)) eqn:SM.
      2:{ left. cbn [on_umessage put_server put_filters put_filters_changed put_reads us_changed us_server us_filters]. rewrite HC, SM. cbn. now rewrite !orb_true_r. }
      right. destruct (m_stages st) as [|s0 ss] eqn:Q.
      * left. split; [rewrite C2; now apply shape_empty|]. intros m Hm. destruct m as [f s|m]; [|intros []]. intros _. exact (G1 eq_refl f s Hm).
      * right. split; [|split].
        -- rewrite C3. destruct R as (fs0 & R). rewrite R in SF. apply same_filters_eq in SF. congruence.
        -- apply eqb_prop in SM. rewrite shape_mouse, C2, <- shape_mouse. congruence.
        -- rewrite C2. intro X. apply (proj1 (shape_empty st)) in X. congruence.
  - destruct (other_step (UOther m) u (fun x => x) Hs) as (C0 & C1 & C2 & C3 & C4 & _). apply IH; [exact G|exact C0| |].
    + destruct R as (fs & R). exists fs. congruence.
    + destruct M as [M|[M|[[M1 M2]|(M1 & M2 & M3)]]].
      * left. auto.
      * right. left. congruence.
      * destruct C2 as [C2|C2]; [now left|right; right; left]. split; [congruence|]. intros x Hx. apply M2. now right.
      * destruct C2 as [C2|C2]; [now left|right; right; right]. split; [congruence|]. split; [rewrite shape_mouse, C2, <- shape_mouse; exact M2|congruence].
Qed.
End Messages.
