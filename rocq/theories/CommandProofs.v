(** Which terminal commands are run (C46): proofs. *)
From Coq Require Import List Arith NArith ZArith Bool Lia.
From Verif Require Import Base Key Text Stage Config StageSpec StageOut MultiStage MultiSpec MultiProofs
  Server ServerSpec ServerProofs ServerQueue CommandSpec.
Import ListNotations.
Local Open Scope N_scope.

Lemma added_app {A} (a b : list A) : added a (a ++ b) = b.
Proof. unfold added. rewrite skipn_app, skipn_all, Nat.sub_diag. reflexivity. Qed.
Lemma triggers_app a b : triggers (a ++ b) = triggers a ++ triggers b.
Proof. apply flat_map_app. Qed.
Lemma commands_app t a b : commands t (a ++ b) = commands t a ++ commands t b.
Proof. apply flat_map_app. Qed.
Lemma told_cons x tr : told (x :: tr) = told tr ++ told_one x.
Proof. unfold told. cbn [rev]. rewrite flat_map_app. cbn. now rewrite app_nil_r. Qed.
Lemma told_app a b : told (a ++ b) = told b ++ told a.
Proof. unfold told. rewrite rev_app_distr. apply flat_map_app. Qed.

(** The numbers among what was done *)
Definition numbers (l : list effect) : list N := flat_map told_one l.
Lemma told_done tr : told tr = numbers (done tr).
Proof.
  induction tr as [|x tr IH]; [reflexivity|]. rewrite told_cons, done_cons, IH. unfold numbers. rewrite flat_map_app. f_equal.
  destruct x as [| |e [] | | | | | | |]; reflexivity.
Qed.
Lemma numbers_visible l : numbers (visible l) = triggers l.
Proof.
  induction l as [|e l IH]; [reflexivity|]. unfold visible, triggers, numbers in *. cbn [flat_map]. rewrite flat_map_app, IH. f_equal.
  unfold calls_for, trigger. destruct (N.eqb_spec (ek e) k_timeout) as [Q|Q].
  - rewrite Q. reflexivity.
  - destruct (is_virtual_key (ek e)) eqn:V.
    + assert (A : is_action_key (ek e) = false).
      { unfold is_virtual_key, is_action_key, in_range, first_virtual, last_virtual, first_action in *.
        apply andb_true_iff in V. rewrite !N.leb_le in V. apply andb_false_iff. left. apply N.leb_gt. lia. }
      now rewrite A.
    + destruct (is_action_key (ek e)); [destruct (es e); reflexivity|]. destruct (_ && _); reflexivity.
Qed.

Section System.
Variable clock : nat -> Z.
Variable send_ok : nat -> bool.


(** ** What a run of the server does to the commands *)

Lemma qinv_triggers s : qinv (None, s) -> triggers (queued (sv_trace s)) = told (sv_trace s) ++ triggers (sv_buf s).
Proof.
  intros (_ & pre & Q & D). cbn [snd fst cursor skipn] in Q. rewrite Q, triggers_app, told_done, D, numbers_visible. reflexivity.
Qed.

Lemma runs_triggers s s' : runs clock send_ok any_label None s s' -> qinv (None, s) -> qinv (None, s') /\
  exists q d, queued (sv_trace s') = queued (sv_trace s) ++ q /\ told (sv_trace s') = told (sv_trace s) ++ d /\
    d ++ triggers (sv_buf s') = triggers (sv_buf s) ++ triggers q.
Proof.
  intros (ls & H & _) Hq. pose proof (steps_qinv clock send_ok _ _ _ H Hq) as Hq'. split; [exact Hq'|].
  destruct (steps_trace clock send_ok _ _ _ H) as (new & T). cbn [snd] in T.
  exists (queued new), (told new). rewrite T, queued_app, told_app. split; [reflexivity|]. split; [reflexivity|].
  pose proof (qinv_triggers s Hq) as A. pose proof (qinv_triggers s' Hq') as B.
  rewrite T, queued_app, told_app, triggers_app, A, <- !app_assoc in B. now apply app_inv_head in B.
Qed.

Lemma step_any st s : sv_sending s = false -> runs clock send_ok any_label None s (server_step clock send_ok st s).
Proof. intros Hs. exact (step_runs clock send_ok any_label closed_any Logic.I st s Hs (step_ok_any st)). Qed.

(** ** Replacing the configuration *)

Lemma release_runs s : runs clock send_ok any_label None s (release_all_keys s).
Proof. eapply runs_one; [apply mi_release|exact Logic.I|intros []]. Qed.
Lemma before_runs s : sv_sending s = false -> runs clock send_ok any_label None s (before_replacing clock send_ok s).
Proof.
  intros Hs. eapply runs_trans; [apply release_runs|]. apply (flush_runs clock send_ok any_label closed_any Logic.I).
  exact (runs_sending clock send_ok any_label _ _ _ (release_runs s) Hs).
Qed.
Lemma after_runs m s : sv_sending s = false ->
  runs clock send_ok any_label None (before_replacing clock send_ok s) (server_step clock send_ok (SMessage (MConfig (Some m))) s).
Proof.
  intros Hs. pose proof (runs_sending clock send_ok any_label _ _ _ (before_runs s Hs) Hs) as H1.
  cbn [server_step on_message]. unfold reset_configuration. fold (before_replacing clock send_ok s).
  eapply runs_trans; [eapply runs_one; [apply mi_clear|exact Logic.I|intros []]|].
  apply (filters_runs clock send_ok any_label closed_any Logic.I). exact H1.
Qed.

(** Without virtual keys nothing new is queued by a flush. *)
Lemma scan_queued left again l : forall i s, Forall (fun e => is_virtual_key (ek e) && kstate_eqb (es e) Down = false) l ->
  queued (sv_trace (fst (fst (scan clock send_ok left again l i s)))) = queued (sv_trace s).
Proof.
  induction l as [|e l IH]; intros i s F; [reflexivity|]. pose proof (Forall_inv F) as V. pose proof (Forall_inv_tail F) as Fl.
  cbn beta in V. cbn [scan]. destruct (is_mouse_wheel (ek e) && kstate_eqb (es e) Down); [now apply IH|].
  destruct (is_action_key (ek e)).
  { rewrite IH by exact Fl. destruct (kstate_eqb (es e) Down); [|reflexivity]. cbn [log sv_trace]. rewrite queued_cons. apply app_nil_r. }
  destruct (is_virtual_key (ek e)).
  { cbn [andb] in V. rewrite V. now apply IH. }
  destruct (ek e =? k_timeout).
  { cbn [fst]. unfold schedule_flush. destruct (sv_flush s); [reflexivity|]. cbn [log tick put_flush sv_trace]. rewrite queued_cons. apply app_nil_r. }
  destruct (send_ok (sv_sends s)).
  - rewrite IH by exact Fl. cbn [log count_send sv_trace]. rewrite queued_cons. apply app_nil_r.
  - cbn [fst log count_send sv_trace]. rewrite queued_cons. apply app_nil_r.
Qed.
Lemma flush_queued s : Forall (fun e => is_virtual_key (ek e) && kstate_eqb (es e) Down = false) (sv_buf s) ->
  queued (sv_trace (fst (flush_send_buffer clock send_ok s))) = queued (sv_trace s).
Proof.
  intros F. unfold flush_send_buffer. destruct (sv_sending s); [reflexivity|]. rewrite flush_loop_scan.
  set (s1 := put_flush None (put_sending true s)). change (sv_buf s1) with (sv_buf s). cbn [skipn].
  pose proof (scan_queued 9 (flush_loop clock send_ok 8) (sv_buf s) 0 s1 F) as H.
  unfold sequence in *. destruct (scan clock send_ok 9 _ (sv_buf s) 0 s1) as [[s' i] b]. cbn [fst] in *. exact H.
Qed.

Lemma released_plain ks : triggers (map (fun k => ev0 k Up) ks) = [].
Proof. induction ks as [|k ks IH]; [reflexivity|]. cbn [map]. unfold triggers in *. cbn [flat_map]. rewrite IH. unfold trigger. cbn. now rewrite andb_false_r. Qed.

Lemma before_queued s : triggers (sv_buf s) = [] ->
  Forall (fun e => is_virtual_key (ek e) && kstate_eqb (es e) Down = false) (sv_buf s) ->
  triggers (queued (sv_trace (before_replacing clock send_ok s))) = triggers (queued (sv_trace s)).
Proof.
  intros T F. unfold before_replacing. unfold release_all_keys. set (r := map _ _).
  destruct (push_all r s) as (_ & Eb & _ & _ & Et & _). rewrite flush_queued.
  - rewrite Et, queued_app. destruct (ServerQueue.pushed r) as [-> _]. rewrite triggers_app. unfold r. rewrite released_plain. apply app_nil_r.
  - rewrite Eb. apply Forall_app. split; [exact F|]. apply Forall_map, Forall_forall. intros k _. cbn. apply andb_false_r.
Qed.

(** ** The invariant *)

Definition last_table (y : system) : list text := match rev (y_up y) with [] => y_held y | x :: _ => snd x end.
Record inv (y : system) : Prop := Inv {
  i_sending : sv_sending (y_server y) = false;
  i_queue : qinv (None, y_server y);
  i_table : last_table y = y_table y;
  i_named : y_named y = y_run y ++ commands (y_held y) (y_down y ++ triggers (sv_buf (y_server y)))
}.
Lemma inv_start : inv start_system.
Proof. split; try reflexivity. split; [cbn; lia|]. exists []. split; reflexivity. Qed.

Lemma inv_step st y : inv y -> y_up y = [] \/ settled y -> inv (ystep_run clock send_ok st y).
Proof.
  intros [Is Iq It In] Or. destruct st as [st|m table| |]; cbn [ystep_run].
  - pose proof (step_any st _ Is) as R. destruct (runs_triggers _ _ R Iq) as (Q' & q & d & Eq & Ed & Eb).
    rewrite Eq, Ed, triggers_app, !added_app. split; cbn [y_server y_held y_table y_up y_down y_named y_run]; auto.
    + exact (runs_sending clock send_ok any_label _ _ _ R Is).
    + rewrite In, <- !app_assoc, Eb. f_equal. rewrite !commands_app, <- !app_assoc. reflexivity.
  - split; cbn [y_server y_held y_table y_up y_down y_named y_run]; auto. unfold last_table. cbn [y_up]. now rewrite rev_app_distr.
  - destruct (y_up y) as [|[m table] r] eqn:U; [split; assumption|].
    destruct Or as [Or|(Sd & St & Sv)]; [discriminate|].
    pose proof (before_runs (y_server y) Is) as R1. destruct (runs_triggers _ _ R1 Iq) as (Q1 & q1 & d1 & Eq1 & Ed1 & Eb1).
    pose proof (after_runs m (y_server y) Is) as R2. destruct (runs_triggers _ _ R2 Q1) as (Q2 & q2 & d2 & Eq2 & Ed2 & Eb2).
    pose proof (before_queued _ St Sv) as T1. rewrite Eq1, triggers_app in T1.
    assert (T0 : triggers q1 = []) by (apply (app_inv_head (triggers (queued (sv_trace (y_server y))))); rewrite app_nil_r; exact T1).
    rewrite T0, St in Eb1. apply app_eq_nil in Eb1. destruct Eb1 as [-> Eb1].
    rewrite Eb1 in Eb2. cbn [app] in Eb2. rewrite app_nil_r in Ed1. rewrite Ed1 in Ed2.
    set (s' := server_step clock send_ok (SMessage (MConfig (Some m))) (y_server y)) in *.
    rewrite Eq2, triggers_app, added_app, Eq1, triggers_app, T0, Ed2, added_app, added_app, Sd.
    split; cbn [y_server y_held y_table y_up y_down y_named y_run app]; auto.
    + exact (runs_sending clock send_ok any_label _ _ _ R2 (runs_sending clock send_ok any_label _ _ _ R1 Is)).
    + unfold last_table in *. cbn [y_up y_held] in *. rewrite U in It. cbn [rev] in It. destruct (rev r); exact It.
    + rewrite In, Sd, St, Eb2. cbn [app commands flat_map]. now rewrite app_nil_r.
  - destruct (y_down y) as [|i r] eqn:D; [split; try assumption; now rewrite D|].
    destruct Or as [U|[Sd _]]; [|congruence].
    unfold last_table in It. rewrite U in It. cbn [rev] in It.
    split; cbn [y_server y_held y_table y_up y_down y_named y_run]; auto.
    + unfold last_table. cbn [y_up y_held]. rewrite U. exact It.
    + rewrite In, <- It, <- app_assoc, <- commands_app. reflexivity.
Qed.

Theorem orderly_named l : orderly clock send_ok l ->
  let y := system_run clock send_ok l start_system in
  y_named y = y_run y ++ commands (y_held y) (y_down y ++ triggers (sv_buf (y_server y))).
Proof.
  intros H. cbn zeta. apply i_named. revert H. induction l as [|st l IH] using rev_ind; intros H; [apply inv_start|].
  unfold system_run. rewrite fold_left_app. cbn [fold_left]. apply inv_step.
  - apply IH. intros a b E. apply (H a (b ++ [st])). now rewrite E, app_assoc.
  - exact (H l [st] eq_refl).
Qed.
End System.
