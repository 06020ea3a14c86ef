(** Proofs about the Windows client's window procedure (C111). *)
From Coq Require Import String Ascii List Arith NArith ZArith Bool Lia Sorted.
From Verif Require Import Base Key Text KeyNames ParseSeq Stage Config Serial Client ClientSpec ClientProofs
  ClientContexts ClientControl WinCommand WinClient WinClientSpec.
Import ListNotations.
Local Open Scope N_scope.

(** * Contexts *)
Section Contexts.
Variable search : text -> text -> bool.
Variable typer : text -> list stroke.
Variable key_name : key -> option text.
Variable system : text.
Variable sent : nat -> bool.
Variable focus : nat -> option window.
Variable disk : nat -> files.
Variable main : text.
Hypothesis no_name : forall n, fs_parse (disk n) [] = None.

Notation good := (good search).
Notation X := (X search).
Notation agree := (agree search).

Lemma X_emit_lost c : X c -> X (emit FLost c).
Proof.
  intros [X1 X2 X3 X4 X5 X6].
  split; cbn [emit cl_trace cl_window cl_active cl_file cl_recent].
  - apply contexts_fit_snoc; [exact X1|discriminate].
  - rewrite window_snoc. exact X2.
  - rewrite active_snoc. exact X3.
  - rewrite current_snoc. exact X4.
  - exact X5.
  - eapply Forall_impl; [|exact X6]. intros f. apply tried_mono.
Qed.

Lemma proc_grows s w :
  grows (wc_state w) (wc_state (snd (window_proc search typer key_name system sent focus disk main s w))).
Proof.
  destruct s as [l|b|k|reads|i|auto| | | |]; cbn [window_proc snd wc_state].
  - apply grows_quiet, quiet_servers.
  - unfold reconnect. destruct b; cbn [snd wc_state].
    + pose proof (grows_config search sent focus
        (c_sent false (cl_sends (emit FLost (wc_state w))) (emit FLost (wc_state w)))) as G.
      destruct (send_config search sent focus _) as [ok c]. cbn [snd] in G.
      eapply grows_trans; [|exact G]. exists [FLost]. reflexivity.
    + exists [FLost]. reflexivity.
  - apply grows_quiet, quiet_accept.
  - apply grows_loop.
  - unfold context_timer. pose proof (grows_update search focus (wc_state w)) as G.
    destruct (update_active_contexts search focus (wc_state w)) as [b c]. cbn [snd] in G.
    destruct (validate_state i (wc_valid w)) as [b' v]. cbn [wc_state].
    assert (G1 : grows (wc_state w) (if b then snd (send_active_contexts sent c) else c)).
    { destruct b; [|exact G]. eapply grows_trans; [exact G|apply grows_send]. }
    destruct b'; [|exact G1]. eapply grows_trans; [exact G1|apply grows_send].
  - unfold config_timer. destruct auto; [|apply grows_refl].
    pose proof (grows_loads _ _ (update_file_loads disk true (wc_state w))) as L.
    destruct (update_file disk true (wc_state w)) as [b c]. cbn [snd] in L.
    destruct b; [|exact L]. eapply grows_trans; [exact L|apply grows_config].
  - apply grows_toggle.
  - unfold reload. pose proof (grows_loads _ _ (load_config_loads disk main (wc_state w))) as L.
    destruct (load_config disk main (wc_state w)) as [b c]. cbn [snd] in L.
    destruct b; [|exact L]. eapply grows_trans; [exact L|apply grows_config].
  - apply grows_send.
  - apply grows_refl.
Qed.

Lemma proc_good s w :
  good (wc_state w) ->
  let r := window_proc search typer key_name system sent focus disk main s w in
  switches_work (cl_trace (wc_state (snd r))) ->
  X (wc_state (snd r)) /\ (fst r = true -> agree (wc_state (snd r))).
Proof.
  intros G r SW. pose proof G as [HX AG]. subst r.
  assert (D : forall c, good c -> X c /\ (true = true -> agree c)) by (intros c [A B]; split; auto).
  destruct s as [l|b|k|reads|i|auto| | | |]; cbn [window_proc snd fst wc_state] in *.
  - apply D. eapply good_quiet; [apply quiet_servers|exact G].
  - unfold reconnect in *. destruct b; cbn [snd fst wc_state] in *.
    + destruct (send_config_X search sent focus
        (c_sent false (cl_sends (emit FLost (wc_state w))) (emit FLost (wc_state w)))) as (A & B & _).
      { apply X_broken, X_emit_lost, HX. }
      destruct (send_config search sent focus _) as [ok c]. cbn [snd fst wc_state] in *. auto.
    + split; [apply X_emit_lost; exact HX|discriminate].
  - apply D. eapply good_quiet; [apply quiet_accept|exact G].
  - apply D. apply good_loop; assumption.
  - apply D. unfold context_timer in *.
    destruct (update_contexts_spec search focus (wc_state w) HX) as (U1 & U2 & U3 & U4 & U5 & U6 & U7 & U8).
    destruct (update_active_contexts search focus (wc_state w)) as [b c]. cbn [fst snd] in *.
    destruct (validate_state i (wc_valid w)) as [b' v]. cbn [wc_state] in *.
    assert (R : cl_broken c = false -> fst (held (cl_trace c)) = Some (cl_config c) /\
                  right_contexts search (cl_trace c) (cl_config c) (cl_active_contexts c)).
    { intro BR. rewrite U4 in BR. rewrite U2, U3, (proj1 (AG BR)). split; [reflexivity|].
      apply U6; [left; exact AG|exact BR]. }
    assert (G1 : good (if b then snd (send_active_contexts sent c) else c)).
    { destruct b; [apply send_contexts_X; assumption|]. split; [exact U1|].
      intro BR. destruct (R BR) as [_ R2]. split; [|exact R2]. rewrite U4 in BR.
      rewrite U2, U3, (proj1 (AG BR)), (U7 eq_refl). reflexivity. }
    destruct b'; [|exact G1]. eapply good_quiet; [|exact G1]. apply quiet_send; intros ? Hq; discriminate Hq.
  - apply D. unfold config_timer in *. destruct auto; [|exact G].
    pose proof (update_file_X search disk true (wc_state w) HX) as A.
    pose proof (update_file_same disk true (wc_state w)) as B.
    pose proof (update_file_loads disk true (wc_state w)) as L.
    destruct (update_file disk true (wc_state w)) as [b c]. cbn [fst snd] in *.
    destruct b.
    + destruct (send_config_X search sent focus c A) as (S1 & S2 & _). split; assumption.
    + split; [exact A|]. eapply agree_loads; [exact L|apply B; reflexivity|exact AG].
  - apply D. apply toggle_X; assumption.
  - apply D. unfold reload in *.
    pose proof (load_config_X search disk no_name main (wc_state w) HX) as L.
    pose proof (load_config_loads disk main (wc_state w)) as LL.
    destruct (load_config disk main (wc_state w)) as [ok c]. cbn [fst snd] in *.
    assert (SW2 : switches_work (cl_trace c)).
    { destruct ok; [|exact SW]. eapply grows_switches; [|exact SW]. apply grows_config. }
    destruct (L SW2) as [HX2 SAME]. destruct ok.
    + destruct (send_config_X search sent focus c HX2) as (S1 & S2 & _). split; assumption.
    + split; [exact HX2|]. eapply agree_loads; [exact LL|apply SAME; reflexivity|exact AG].
  - apply D. eapply good_quiet; [|exact G]. apply quiet_send; intros ? Hq; discriminate Hq.
  - apply D. exact G.
Qed.

Notation window_run := (window_run search typer key_name system sent focus disk main).
Notation window_main := (window_main search typer key_name system sent focus disk main).
Lemma wrun_grows l : forall w, grows (wc_state w) (wc_state (snd (window_run l w))).
Proof.
  induction l as [|s l IH]; intro w; cbn [WinClient.window_run snd]; [apply grows_refl|].
  pose proof (proc_grows s w) as G. destruct (window_proc _ _ _ _ _ _ _ _ s w) as [ok w']. cbn [snd] in G.
  destruct ok; [|exact G]. eapply grows_trans; [exact G|apply IH].
Qed.
Lemma wrun_good l : forall w, good (wc_state w) -> switches_work (cl_trace (wc_state (snd (window_run l w)))) ->
  X (wc_state (snd (window_run l w))) /\
  (fst (window_run l w) = true -> agree (wc_state (snd (window_run l w)))).
Proof.
  induction l as [|s l IH]; intros w G SW; cbn [WinClient.window_run snd fst] in *.
  - destruct G as [A B]. auto.
  - pose proof (proc_good s w G) as P. cbv zeta in P.
    pose proof (wrun_grows l) as WG.
    destruct (window_proc _ _ _ _ _ _ _ _ s w) as [ok w']. cbn [snd fst] in *.
    destruct ok; [|cbn [fst snd] in *; split; [apply P; exact SW|intro Q; discriminate Q]].
    apply IH; [|exact SW]. destruct P as [A B]; [|split; auto].
    eapply grows_switches; [apply WG|exact SW].
Qed.
(** Loading the first file, as good_start of ClientContexts.v *)
Lemma wmain_good l : main <> [] -> fs_time (disk 0) main <> (-1)%Z ->
  switches_work (cl_trace (wc_state (snd (window_main l)))) ->
  X (wc_state (snd (window_main l))) /\
  (fst (window_main l) = true -> agree (wc_state (snd (window_main l)))).
Proof.
  intros NE TM SW. unfold WinClient.window_main in *. apply wrun_good; [|exact SW]. cbn [wc_state].
  pose proof (good_start search sent focus disk main NE TM) as G. unfold start_client, connect in G.
  assert (Q : c_sent false (cl_sends (snd (load_config disk main new_client))) (snd (load_config disk main new_client))
            = snd (load_config disk main new_client)).
  { assert (B : cl_broken (snd (load_config disk main new_client)) = false).
    { destruct (load_config_loads disk main new_client) as [_ _ _ _ Q _ _ _]. cbn in Q. congruence. }
    destruct (snd (load_config disk main new_client)). cbn in B |- *. subst. reflexivity. }
  rewrite Q in G. exact G.
Qed.
End Contexts.

(** * Virtual keys and connections of keymapperctl *)

(** The client as if the connection had never been lost *)
Definition strip (c : client) : client :=
  CL (cl_file c) (cl_recent c) (cl_active_contexts c) (cl_active c) (cl_window c) (cl_down c) (cl_aliases c)
     (cl_controls c) (cl_broken c) (cl_ub c) (cl_sends c) (cl_focus c) (cl_updates c) (unlost (cl_trace c)).

Lemma unlost_app a b : unlost (a ++ b) = unlost a ++ unlost b.
Proof. unfold unlost. apply filter_app. Qed.
Lemma strip_emit e c : e <> FLost -> strip (emit e c) = emit e (strip c).
Proof.
  intro H. unfold strip, emit.
  cbn [cl_file cl_recent cl_active_contexts cl_active cl_window cl_down cl_aliases cl_controls cl_broken cl_ub
       cl_sends cl_focus cl_updates cl_trace].
  rewrite unlost_app. f_equal. f_equal. destruct e; try reflexivity. contradiction.
Qed.
Lemma strip_lost c : strip (emit FLost c) = strip c.
Proof.
  unfold strip, emit.
  cbn [cl_file cl_recent cl_active_contexts cl_active cl_window cl_down cl_aliases cl_controls cl_broken cl_ub
       cl_sends cl_focus cl_updates cl_trace].
  rewrite unlost_app. f_equal. apply app_nil_r.
Qed.

Section Strip.
Variable search : text -> text -> bool.
Variable typer : text -> list stroke.
Variable key_name : key -> option text.
Variable system : text.
Variable sent : nat -> bool.
Variable focus : nat -> option window.
Variable disk : nat -> files.
Variable main : text.

Lemma strip_send m c : send sent m (strip c) = (fst (send sent m c), strip (snd (send sent m c))).
Proof.
  unfold send. cbn [strip cl_broken cl_sends fst snd].
  destruct (negb (cl_broken c) && sent (cl_sends c)); cbn [fst snd]; [|reflexivity].
  rewrite strip_emit by discriminate. reflexivity.
Qed.
Lemma strip_loaded name r c : loaded name r (strip c) = strip (loaded name r c).
Proof. destruct r; cbn [loaded]; [|reflexivity]. rewrite strip_emit by discriminate. reflexivity. Qed.
Lemma strip_update_file b c :
  update_file disk b (strip c) = (fst (update_file disk b c), strip (snd (update_file disk b c))).
Proof.
  unfold update_file. cbn [strip cl_updates cl_file].
  destruct (file_update (disk (cl_updates c)) b (cl_file c)) as [r f]. cbn [fst snd].
  rewrite <- strip_loaded. reflexivity.
Qed.
Lemma strip_load name c :
  load_config disk name (strip c) = (fst (load_config disk name c), strip (snd (load_config disk name c))).
Proof.
  unfold load_config. cbn [strip cl_updates cl_file cl_recent].
  destruct (text_eqb (cf_name (cl_file c)) name); [apply strip_update_file|].
  destruct (swap_recent name (cl_file c) (cl_recent c)) as [[f l]|].
  - change (c_file f (c_recent l (strip c))) with (strip (c_file f (c_recent l c))). apply strip_update_file.
  - destruct (file_load (disk (cl_updates c)) name) as [r f].
    change (c_updates (S (cl_updates c)) (strip c)) with (strip (c_updates (S (cl_updates c)) c)).
    rewrite strip_loaded. set (c1 := loaded name r _).
    destruct (match r with Some ok => ok | None => false end); cbn [fst snd strip cl_file];
      destruct (cf_name (cl_file c1)); reflexivity.
Qed.
Lemma strip_update c : update_active_contexts search focus (strip c) =
  (fst (update_active_contexts search focus c), strip (snd (update_active_contexts search focus c))).
Proof.
  unfold update_active_contexts. cbn [strip cl_active cl_focus cl_window].
  destruct (negb (cl_active c)); [reflexivity|].
  destruct (focus (cl_focus c)) as [w|]; cbv zeta.
  - change (emit (FWindow w) (c_window w (S (cl_focus c)) (strip c)))
      with (emit (FWindow w) (strip (c_window w (S (cl_focus c)) c))).
    rewrite <- strip_emit by discriminate. set (c1 := emit _ _). cbn [strip cl_window cl_active_contexts cl_config cl_file].
    change (cl_config (strip c1)) with (cl_config c1).
    destruct (zlist_eqb _ _); reflexivity.
  - change (c_window (cl_window c) (S (cl_focus c)) (strip c))
      with (strip (c_window (cl_window c) (S (cl_focus c)) c)). set (c1 := c_window _ _ c).
    cbn [strip cl_window cl_active_contexts]. change (cl_config (strip c1)) with (cl_config c1).
    destruct (cl_active_contexts c1); [|reflexivity]. destruct (zlist_eqb _ _); reflexivity.
Qed.
Lemma strip_send_contexts c : send_active_contexts sent (strip c) =
  (fst (send_active_contexts sent c), strip (snd (send_active_contexts sent c))).
Proof. unfold send_active_contexts. cbn [strip cl_active_contexts]. apply strip_send. Qed.
Lemma strip_config c : send_config search sent focus (strip c) =
  (fst (send_config search sent focus c), strip (snd (send_config search sent focus c))).
Proof.
  unfold send_config. change (cl_config (strip c)) with (cl_config c). rewrite strip_send.
  destruct (send sent (SConfig (cl_config c)) c) as [ok c1]. cbn [fst snd].
  destruct ok; cbn [negb fst snd]; [|reflexivity]. f_equal.
  change (c_contexts [] (c_aliases (cfg_aliases (cl_config (strip c1))) (strip c1)))
    with (strip (c_contexts [] (c_aliases (cfg_aliases (cl_config c1)) c1))).
  set (c2 := c_contexts _ _). cbn [strip cl_active]. destruct (cl_active c2); [|reflexivity].
  rewrite strip_update. cbn [snd]. rewrite strip_send_contexts. reflexivity.
Qed.
Lemma strip_toggle c : toggle_active search sent focus (strip c) = strip (toggle_active search sent focus c).
Proof.
  unfold toggle_active. cbn [strip cl_active].
  change (emit (FActive (negb (cl_active c))) (c_active (negb (cl_active c)) (strip c)))
    with (emit (FActive (negb (cl_active c))) (strip (c_active (negb (cl_active c)) c))).
  rewrite <- strip_emit by discriminate. set (c1 := emit _ _). cbn [strip cl_active].
  destruct (cl_active c1).
  - rewrite strip_update. cbn [snd]. rewrite strip_send_contexts. reflexivity.
  - change (c_contexts [] (strip c1)) with (strip (c_contexts [] c1)). rewrite strip_send_contexts. reflexivity.
Qed.
Lemma strip_key_state s k c : send_virtual_key_state s k (strip c) = strip (send_virtual_key_state s k c).
Proof.
  unfold send_virtual_key_state, get_virtual_key_state, answer. cbn [strip cl_down].
  destruct (is_virtual_key k); [destruct (nth_error (cl_down c) _)|]; rewrite strip_emit by discriminate; reflexivity.
Qed.
Lemma strip_notify k l : forall c, notify_loop k l (strip c) = (fst (notify_loop k l c), strip (snd (notify_loop k l c))).
Proof.
  induction l as [|x l IH]; intro c; cbn [notify_loop]; [reflexivity|].
  destruct (ct_notify x =? k).
  - rewrite strip_key_state, IH. destruct (notify_loop k l _) as [r c']. reflexivity.
  - rewrite IH. destruct (notify_loop k l c) as [r c']. reflexivity.
Qed.
Lemma strip_changed k st c : on_virtual_key_state_changed k st (strip c) = strip (on_virtual_key_state_changed k st c).
Proof.
  unfold on_virtual_key_state_changed. destruct (is_virtual_key k); [|reflexivity].
  cbn [strip cl_down cl_ub].
  set (c1 := if Nat.ltb (N.to_nat (k - first_virtual)) (length (cl_down c)) then _ else c_down _ true c).
  match goal with |- context [notify_loop k (cl_controls ?x)] =>
    assert (Q : x = strip c1) by (unfold c1; destruct (Nat.ltb _ _); reflexivity); rewrite Q end.
  cbn [strip cl_controls]. rewrite strip_notify. destruct (notify_loop k (cl_controls c1) c1) as [l c2]. reflexivity.
Qed.
Lemma strip_closes l : forall c, fold_left (fun c x => emit (FClosed (ct_socket x)) c) l (strip c) =
  strip (fold_left (fun c x => emit (FClosed (ct_socket x)) c) l c).
Proof.
  induction l as [|x l IH]; intro c; cbn [fold_left]; [reflexivity|].
  rewrite <- strip_emit by discriminate. apply IH.
Qed.
Lemma strip_instance s id c : on_set_instance_id s id (strip c) = strip (on_set_instance_id s id c).
Proof.
  unfold on_set_instance_id. cbn [strip cl_controls]. destruct (get_control s (cl_controls c)) as [x|]; [|reflexivity].
  destruct (text_eqb (ct_id x) id); [reflexivity|].
  assert (Q : disconnect_by_instance_id id (strip c) = strip (disconnect_by_instance_id id c)).
  { unfold disconnect_by_instance_id. destruct (trivial_id id); [reflexivity|].
    rewrite <- strip_closes. reflexivity. }
  rewrite Q. reflexivity.
Qed.
Lemma strip_reply t l : forall c, reply_loop t l (strip c) = (fst (reply_loop t l c), strip (snd (reply_loop t l c))).
Proof.
  induction l as [|x l IH]; intro c; cbn [reply_loop]; [reflexivity|].
  unfold answer. destruct (ct_info x).
  - rewrite <- strip_emit by discriminate. rewrite IH. destruct (reply_loop t l _) as [[b r] c']. reflexivity.
  - rewrite IH. destruct (reply_loop t l c) as [[b r] c']. reflexivity.
Qed.
Lemma strip_answer s m c : answer s m (strip c) = strip (answer s m c).
Proof. unfold answer. rewrite strip_emit by discriminate. reflexivity. Qed.
Lemma strip_control s m c : on_control_message search typer sent focus disk s m (strip c) =
  strip (on_control_message search typer sent focus disk s m c).
Proof.
  unfold on_control_message. rewrite <- strip_emit by discriminate. set (c1 := emit _ c). clearbody c1.
  assert (GK : forall n, get_virtual_key n (strip c1) = get_virtual_key n c1) by reflexivity.
  destruct m as [n|n st|n|id|n| |t|t]; rewrite ?GK.
  - apply strip_key_state.
  - rewrite strip_send. apply strip_key_state.
  - unfold on_toggle_requested. destruct (_ =? 0); [apply strip_key_state|reflexivity].
  - rewrite strip_instance. apply strip_key_state.
  - rewrite strip_load. destruct (load_config disk n c1) as [ok c2]. cbn [fst snd]. destruct ok.
    + rewrite strip_config. destruct (send_config search sent focus c2) as [ok c3]. apply strip_answer.
    + apply strip_answer.
  - change (on_next_key_requested s (strip c1)) with (strip (on_next_key_requested s c1)).
    rewrite strip_send. reflexivity.
  - destruct (parse_injected typer t); [rewrite strip_send|]; apply strip_answer.
  - destruct (parse_injected typer t); [rewrite strip_send|]; apply strip_answer.
Qed.
Lemma strip_controls s l : forall c,
  fold_left (fun c m => on_control_message search typer sent focus disk s m c) l (strip c) =
  strip (fold_left (fun c m => on_control_message search typer sent focus disk s m c) l c).
Proof. induction l as [|m l IH]; intro c; cbn [fold_left]; [reflexivity|]. rewrite strip_control. apply IH. Qed.
Lemma strip_loop reads l : forall c, control_loop search typer sent focus disk reads l (strip c) =
  strip (control_loop search typer sent focus disk reads l c).
Proof.
  induction l as [|s l IH]; intro c; cbn [control_loop]; [reflexivity|].
  cbn [strip cl_controls]. destruct (get_control s (cl_controls c)); [|apply IH].
  destruct (reads s) as [ms ok]. fold (strip c). rewrite strip_controls. set (c1 := fold_left _ ms c).
  destruct ok; [apply IH|]. rewrite <- IH. rewrite strip_emit by discriminate. reflexivity.
Qed.
Lemma strip_server m c : on_server_message key_name system m (strip c) = strip (on_server_message key_name system m c).
Proof.
  unfold on_server_message. rewrite <- strip_emit by discriminate. set (c1 := emit _ c). clearbody c1.
  destruct m as [i|k st|k name id].
  - change (cl_config (strip c1)) with (cl_config c1). destruct (0 <=? i)%Z; [|reflexivity].
    destruct (nth_error _ _); [|reflexivity]. rewrite strip_emit by discriminate. reflexivity.
  - apply strip_changed.
  - cbn [strip cl_window cl_controls]. fold (strip c1). rewrite strip_reply.
    destruct (reply_loop _ (cl_controls c1) c1) as [[b l] c2]. cbn [fst snd].
    destruct b; [reflexivity|]. rewrite strip_emit by discriminate. reflexivity.
Qed.
Lemma strip_servers l : forall c,
  fold_left (fun c m => on_server_message key_name system m c) l (strip c) =
  strip (fold_left (fun c m => on_server_message key_name system m c) l c).
Proof. induction l as [|m l IH]; intro c; cbn [fold_left]; [reflexivity|]. rewrite strip_server. apply IH. Qed.

Definition winv (w : wclient) : Prop := inv (strip (wc_state w)).

Lemma proc_winv s w : winv w -> winv (snd (window_proc search typer key_name system sent focus disk main s w)).
Proof.
  unfold winv. intro G.
  destruct s as [l|b|k|reads|i|auto| | | |]; cbn [window_proc snd wc_state].
  - rewrite <- strip_servers. apply servers_inv. exact G.
  - unfold reconnect. destruct b; cbn [snd wc_state].
    + pose proof (strip_config (c_sent false (cl_sends (emit FLost (wc_state w))) (emit FLost (wc_state w)))) as Q.
      destruct (send_config search sent focus (c_sent _ _ _)) as [ok c]. cbn [snd fst wc_state] in *.
      assert (E : strip c = snd (send_config search sent focus
         (strip (c_sent false (cl_sends (emit FLost (wc_state w))) (emit FLost (wc_state w))))))
        by (rewrite Q; reflexivity).
      rewrite E. eapply inv_keep; [apply keep_config|].
      change (strip (c_sent false (cl_sends (emit FLost (wc_state w))) (emit FLost (wc_state w))))
        with (c_sent false (cl_sends (wc_state w)) (strip (emit FLost (wc_state w)))).
      rewrite strip_lost. eapply inv_keep; [|exact G]. split; try reflexivity. exists []. rewrite app_nil_r. auto.
    + rewrite strip_lost. exact G.
  - assert (Q : strip (accept_control k (wc_state w)) = accept_control k (strip (wc_state w))).
    { unfold accept_control. rewrite strip_emit by discriminate. reflexivity. }
    rewrite Q. apply accept_inv. exact G.
  - unfold read_control_messages. rewrite <- strip_loop. apply loop_inv. exact G.
  - unfold context_timer.
    pose proof (strip_update (wc_state w)) as U. pose proof (keep_update search focus (strip (wc_state w))) as K.
    destruct (update_active_contexts search focus (wc_state w)) as [b c]. rewrite U in K. cbn [fst snd] in K.
    destruct (validate_state i (wc_valid w)) as [b' v]. cbn [wc_state].
    assert (G1 : inv (strip (if b then snd (send_active_contexts sent c) else c))).
    { assert (G0 : inv (strip c)) by (eapply inv_keep; eassumption). destruct b; [|exact G0].
      pose proof (keep_send sent (SActive (cl_active_contexts c)) (strip c)) as K1.
      rewrite strip_send in K1. eapply inv_keep; [exact K1|exact G0]. }
    destruct b'; [|exact G1]. pose proof (keep_send sent SValidate (strip (if b then snd (send_active_contexts sent c) else c))) as K1.
    rewrite strip_send in K1. eapply inv_keep; [exact K1|exact G1].
  - unfold config_timer. destruct auto; [|exact G].
    pose proof (strip_update_file true (wc_state w)) as U.
    pose proof (keep_loads _ _ (update_file_loads disk true (strip (wc_state w)))) as K.
    destruct (update_file disk true (wc_state w)) as [b c]. rewrite U in K. cbn [fst snd] in K.
    assert (G0 : inv (strip c)) by (eapply inv_keep; eassumption). destruct b; [|exact G0].
    pose proof (keep_config search sent focus (strip c)) as K1. rewrite strip_config in K1.
    eapply inv_keep; [exact K1|exact G0].
  - rewrite <- strip_toggle. eapply inv_keep; [apply keep_toggle|exact G].
  - unfold reload. pose proof (strip_load main (wc_state w)) as U.
    pose proof (keep_loads _ _ (load_config_loads disk main (strip (wc_state w)))) as K.
    destruct (load_config disk main (wc_state w)) as [b c]. rewrite U in K. cbn [fst snd] in K.
    assert (G0 : inv (strip c)) by (eapply inv_keep; eassumption). destruct b; [|exact G0].
    pose proof (keep_config search sent focus (strip c)) as K1. rewrite strip_config in K1.
    eapply inv_keep; [exact K1|exact G0].
  - pose proof (keep_send sent SNextKey (strip (wc_state w))) as K1.
    rewrite strip_send in K1. eapply inv_keep; [exact K1|exact G].
  - exact G.
Qed.
Lemma wrun_winv l : forall w, winv w -> winv (snd (window_run search typer key_name system sent focus disk main l w)).
Proof.
  induction l as [|s l IH]; intros w G; cbn [window_run]; [exact G|].
  pose proof (proc_winv s w G) as P. destruct (window_proc _ _ _ _ _ _ _ _ s w) as [ok w']. cbn [snd] in P.
  destruct ok; [apply IH; exact P|exact P].
Qed.
Lemma wmain_winv l : winv (snd (window_main search typer key_name system sent focus disk main l)).
Proof.
  unfold window_main. apply wrun_winv. unfold winv. cbn [wc_state].
  pose proof (strip_config (snd (load_config disk main new_client))) as Q.
  assert (E : strip (snd (send_config search sent focus (snd (load_config disk main new_client)))) =
    snd (send_config search sent focus (strip (snd (load_config disk main new_client))))) by (rewrite Q; reflexivity).
  rewrite E. eapply inv_keep; [apply keep_config|].
  pose proof (strip_load main new_client) as U.
  assert (E2 : strip (snd (load_config disk main new_client)) = snd (load_config disk main (strip new_client)))
    by (rewrite U; reflexivity).
  rewrite E2. eapply inv_keep; [apply keep_loads, load_config_loads|]. apply new_inv.
Qed.
End Strip.

(** An answer of the trace is one of the stripped trace. *)
Lemma answers_unlost t : answers_right (unlost t) -> answers_last t.
Proof.
  intros H p s k st q E VK NL. subst t. rewrite unlost_app in H.
  exact (H (unlost p) s k st (unlost q) eq_refl VK NL).
Qed.
