(** The window the client holds is the one which was reported last (C87). *)
From Coq Require Import String Ascii List Arith NArith ZArith Bool Lia.
From Verif Require Import Base Key Text KeyNames ParseSeq Stage Config Serial Client ClientSpec ClientProofs
  ClientContexts Focus FocusSpec FocusProofs.
Import ListNotations.
Local Open Scope N_scope.

Lemma last_shown_app l : forall m d, last_shown (l ++ m) d = last_shown m (last_shown l d).
Proof. induction l as [|[w|] r IH]; intros m d; cbn; [reflexivity|apply IH|apply IH]. Qed.

Section Client.
Variable search : text -> text -> bool.
Variable typer : text -> list stroke.
Variable key_name : key -> option text.
Variable system : text.
Variable sent : nat -> bool.
Variable focus : nat -> option window.
Variable disk : nat -> files.

Notation send := (send sent).
Notation update_file := (update_file disk).
Notation load_config := (load_config disk).
Notation update_active_contexts := (update_active_contexts search focus).
Notation send_active_contexts := (send_active_contexts sent).
Notation send_config := (send_config search sent focus).
Notation on_control_message := (on_control_message search typer sent focus disk).
Notation control_loop := (control_loop search typer sent focus disk).
Notation on_server_message := (on_server_message key_name system).
Notation loop_turn := (loop_turn search typer key_name system sent focus disk).
Notation client_step := (client_step search typer key_name system sent focus disk).
Notation client_run := (client_run search typer key_name system sent focus disk).
Notation client_main := (client_main search typer key_name system sent focus disk).

(** What the client was told so far *)
Definition told (n : nat) : list (option window) := map focus (seq 0 n).
Definition view (c : client) : window * nat := (cl_window c, cl_focus c).
Definition seen (c : client) : Prop := cl_window c = last_shown (told (cl_focus c)) (Win [] [] []).
Lemma seen_view c c' : view c' = view c -> seen c -> seen c'.
Proof. unfold view, seen. intros [= -> ->]. auto. Qed.

Lemma send_view m c : view (snd (send m c)) = view c.
Proof. unfold Client.send. destruct (negb (cl_broken c) && sent (cl_sends c)); reflexivity. Qed.
Lemma loaded_view n r c : view (loaded n r c) = view c.
Proof. destruct r; reflexivity. Qed.
Lemma update_file_view b c : view (snd (update_file b c)) = view c.
Proof. unfold Client.update_file. destruct (file_update _ _ _) as [r f]. cbn [snd]. rewrite loaded_view. reflexivity. Qed.
Lemma load_config_view n c : view (snd (load_config n c)) = view c.
Proof.
  unfold Client.load_config. destruct (text_eqb _ _); [apply update_file_view|].
  destruct (swap_recent _ _ _) as [[f l]|]; [rewrite update_file_view; reflexivity|].
  destruct (file_load _ _) as [r f]. cbv zeta.
  destruct (match r with Some ok => ok | None => false end); cbn [snd].
  - destruct r; destruct (cf_name _); reflexivity.
  - destruct r; destruct (cf_name _); reflexivity.
Qed.
Lemma uac_seen c : seen c -> seen (snd (update_active_contexts c)).
Proof.
  unfold Client.update_active_contexts. intro H. destruct (negb (cl_active c)); [exact H|].
  assert (Q : seen (match focus (cl_focus c) with
                    | Some w => emit (FWindow w) (c_window w (S (cl_focus c)) c)
                    | None => c_window (cl_window c) (S (cl_focus c)) c
                    end)).
  { unfold seen, told in *. destruct (focus (cl_focus c)) as [w|] eqn:F; cbn [cl_window cl_focus emit c_window];
      rewrite seq_S, map_app, last_shown_app; cbn; rewrite F; cbn; auto. }
  cbv zeta. revert Q. generalize (match focus (cl_focus c) with Some w => emit (FWindow w) (c_window w (S (cl_focus c)) c) | None => c_window (cl_window c) (S (cl_focus c)) c end). intros c1 Q.
  destruct (match focus (cl_focus c) with Some _ => false | None => match cl_active_contexts c1 with [] => false | _ => true end end); [exact Q|].
  destruct (zlist_eqb _ _); cbn [snd]; exact Q.
Qed.
Lemma sac_view c : view (snd (send_active_contexts c)) = view c.
Proof. apply send_view. Qed.
Lemma send_config_seen c : seen c -> seen (snd (send_config c)).
Proof.
  unfold Client.send_config. intro H. destruct (send _ c) as [ok c1] eqn:S1.
  assert (H1 : seen c1).
  { apply (seen_view c); [|exact H]. change c1 with (snd (ok, c1)). rewrite <- S1. apply send_view. }
  destruct (negb ok); [exact H1|]. cbv zeta. cbn [snd].
  assert (H2 : seen (c_contexts [] (c_aliases (cfg_aliases (cl_config c1)) c1))) by exact H1.
  destruct (cl_active _); [|exact H2].
  eapply seen_view; [apply sac_view|]. apply uac_seen. exact H2.
Qed.
Lemma toggle_seen c : seen c -> seen (toggle_active search sent focus c).
Proof.
  unfold toggle_active. intro H. cbv zeta. eapply seen_view; [apply sac_view|].
  destruct (cl_active (emit _ _)); [apply uac_seen|]; exact H.
Qed.
Lemma gvs_view k c : view (snd (get_virtual_key_state k c)) = view c.
Proof. unfold get_virtual_key_state. destruct (is_virtual_key k); [destruct (nth_error _ _)|]; reflexivity. Qed.
Lemma svs_view s k c : view (send_virtual_key_state s k c) = view c.
Proof.
  unfold send_virtual_key_state. pose proof (gvs_view k c) as H. destruct (get_virtual_key_state k c). exact H.
Qed.
Lemma notify_view k l : forall c, view (snd (notify_loop k l c)) = view c.
Proof.
  induction l as [|x r IH]; intro c; [reflexivity|]. cbn [notify_loop]. destruct (ct_notify x =? k).
  - cbv zeta. specialize (IH (send_virtual_key_state (ct_socket x) k c)).
    destruct (notify_loop _ _ _). cbn [snd] in *. rewrite IH. apply svs_view.
  - specialize (IH c). destruct (notify_loop _ _ _). exact IH.
Qed.
Lemma reply_view t l : forall c, view (snd (reply_loop t l c)) = view c.
Proof.
  induction l as [|x r IH]; intro c; [reflexivity|]. cbn [reply_loop]. cbv zeta.
  specialize (IH (if ct_info x then answer (ct_socket x) (ANextKeyInfo t) c else c)).
  destruct (reply_loop _ _ _) as [[b r'] c']. cbn [snd] in *. rewrite IH. destruct (ct_info x); reflexivity.
Qed.
Lemma closing_view l : forall c, view (fold_left (fun c x => emit (FClosed (ct_socket x)) c) l c) = view c.
Proof. induction l as [|x r IH]; intro c; [reflexivity|]. cbn [fold_left]. rewrite IH. reflexivity. Qed.
Lemma set_id_view s id c : view (on_set_instance_id s id c) = view c.
Proof.
  unfold on_set_instance_id. destruct (get_control _ _) as [x|]; [|reflexivity].
  destruct (text_eqb _ _); [reflexivity|]. cbv zeta. unfold disconnect_by_instance_id.
  destruct (trivial_id id); [reflexivity|].
  set (c' := fold_left _ _ _). change (view c' = view c). unfold c'. rewrite closing_view. reflexivity.
Qed.
Lemma control_seen s m c : seen c -> seen (on_control_message s m c).
Proof.
  unfold Client.on_control_message. intro H. assert (H0 : seen (emit (FAsked s m) c)) by exact H.
  revert H0. generalize (emit (FAsked s m) c). clear H c. intros c H. cbv zeta. destruct m as [n|n st|n|id|name| |t|t].
  - eapply seen_view; [apply svs_view|exact H].
  - eapply seen_view; [rewrite svs_view; apply send_view|exact H].
  - unfold on_toggle_requested. destruct (_ =? 0); [eapply seen_view; [apply svs_view|exact H]|exact H].
  - eapply seen_view; [rewrite svs_view; apply set_id_view|exact H].
  - destruct (load_config name c) as [ok c1] eqn:LC.
    assert (H1 : seen c1).
    { apply (seen_view c); [|exact H]. change c1 with (snd (ok, c1)). rewrite <- LC. apply load_config_view. }
    destruct ok; [|exact H1]. pose proof (send_config_seen c1 H1) as H2. destruct (send_config c1). exact H2.
  - eapply seen_view; [rewrite send_view; reflexivity|exact H].
  - destruct (parse_injected typer t); [|exact H].
    eapply seen_view; [|exact H]. unfold answer_bool, answer. rewrite <- (send_view (SInjectInput s0) c). reflexivity.
  - destruct (parse_injected typer t); [|exact H].
    eapply seen_view; [|exact H]. unfold answer_bool, answer. rewrite <- (send_view (SInjectOutput s0) c). reflexivity.
Qed.
Lemma controls_seen s l : forall c, seen c -> seen (fold_left (fun c m => on_control_message s m c) l c).
Proof. induction l as [|m r IH]; intros c H; [exact H|]. apply IH, control_seen, H. Qed.
Lemma control_loop_seen reads l : forall c, seen c -> seen (control_loop reads l c).
Proof.
  induction l as [|s r IH]; intros c H; [exact H|]. cbn [Client.control_loop].
  destruct (get_control s (cl_controls c)); [|apply IH, H]. destruct (reads s) as [m ok].
  apply IH. pose proof (controls_seen s m c H) as H1. destruct ok; exact H1.
Qed.
Lemma server_view m c : view (on_server_message m c) = view c.
Proof.
  unfold Client.on_server_message. cbv zeta. destruct m as [i|k st|k n id].
  - destruct (0 <=? i)%Z; [|reflexivity]. destruct (nth_error _ _); reflexivity.
  - unfold on_virtual_key_state_changed. destruct (is_virtual_key k); [|reflexivity]. cbv zeta.
    set (c1 := if Nat.ltb _ _ then _ else _).
    assert (V : view c1 = view c) by (unfold c1; destruct (Nat.ltb _ _); reflexivity).
    pose proof (notify_view k (cl_controls c1) c1) as N1. destruct (notify_loop _ _ _) as [l c2]. cbn [snd] in N1.
    change (view c2 = view c). congruence.
  - set (t := key_info_text _ _ _ _ _ _). set (c0 := emit _ c).
    pose proof (reply_view t (cl_controls c0) c0) as N1. destruct (reply_loop _ _ _) as [[b l] c2]. cbn [snd] in N1.
    destruct b; exact N1.
Qed.
Lemma server_seen l : forall c, seen c -> seen (fold_left (fun c m => on_server_message m c) l c).
Proof. induction l as [|m r IH]; intros c H; [exact H|]. apply IH. eapply seen_view; [apply server_view|exact H]. Qed.
Lemma loop_seen t c : seen c -> seen (snd (loop_turn t c)).
Proof.
  unfold Client.loop_turn. intro H.
  destruct (if tu_auto t then update_file true c else (false, c)) as [ch c1] eqn:E1.
  assert (H1 : seen c1).
  { destruct (tu_auto t); [|injection E1 as <- <-; exact H].
    apply (seen_view c); [|exact H]. change c1 with (snd (ch, c1)). rewrite <- E1. apply update_file_view. }
  destruct (if ch then send_config c1 else (true, c1)) as [ok c2] eqn:E2.
  assert (H2 : seen c2).
  { destruct ch; [|injection E2 as <- <-; exact H1].
    change c2 with (snd (ok, c2)). rewrite <- E2. apply send_config_seen, H1. }
  destruct (negb ok); [exact H2|].
  destruct (update_active_contexts c2) as [ch3 c3] eqn:E3.
  assert (H3 : seen c3) by (change c3 with (snd (ch3, c3)); rewrite <- E3; apply uac_seen, H2).
  destruct (if ch3 then send_active_contexts c3 else (true, c3)) as [ok4 c4] eqn:E4.
  assert (H4 : seen c4).
  { destruct ch3; [|injection E4 as <- <-; exact H3].
    apply (seen_view c3); [|exact H3]. change c4 with (snd (ok4, c4)). rewrite <- E4. apply sac_view. }
  destruct (negb ok4); [exact H4|]. cbv zeta.
  pose proof (server_seen (fst (tu_server t)) c4 H4) as H5. revert H5.
  generalize (fold_left (fun c m => on_server_message m c) (fst (tu_server t)) c4). intros c5 H5.
  destruct (negb (snd (tu_server t))); [exact H5|]. cbn [snd].
  unfold read_control_messages. apply control_loop_seen. destruct (tu_accept t); exact H5.
Qed.
Lemma connect_seen c : seen c -> seen (snd (connect search sent focus c)).
Proof. intro H. apply send_config_seen. exact H. Qed.
Lemma step_seen s c : seen c -> seen (snd (client_step s c)).
Proof.
  intro H. destruct s as [t| | |]; cbn [Client.client_step].
  - pose proof (loop_seen t c H) as H1. destruct (loop_turn t c) as [ok c1]. cbn [snd] in H1.
    destruct ok; [exact H1|]. apply connect_seen. exact H1.
  - apply toggle_seen, H.
  - cbn [snd]. apply send_config_seen. eapply seen_view; [apply update_file_view|exact H].
  - cbn [snd]. eapply seen_view; [apply send_view|exact H].
Qed.
Lemma run_seen l : forall c, seen c -> seen (client_run l c).
Proof.
  induction l as [|s r IH]; intros c H; [exact H|]. cbn [Client.client_run].
  pose proof (step_seen s c H) as H1. destruct (client_step s c) as [ok c1]. destruct ok; [apply IH|]; exact H1.
Qed.
Theorem main_seen name l : seen (client_main name l).
Proof.
  unfold Client.client_main, start_client.
  assert (H : seen (snd (load_config name new_client))).
  { eapply seen_view; [apply load_config_view|]. reflexivity. }
  pose proof (connect_seen _ H) as H1. destruct (connect _ _ _ _) as [ok c]. cbn [snd] in H1.
  destruct ok; [apply run_seen|]; exact H1.
Qed.
End Client.
