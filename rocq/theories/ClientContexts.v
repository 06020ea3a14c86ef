(** The contexts the server is told to be active are the right ones (C47, C57). *)
From Coq Require Import String Ascii List Arith NArith ZArith Bool Lia.
From Verif Require Import Base Key Text KeyNames ParseSeq Stage Config Serial Client ClientSpec ClientProofs.
Import ListNotations.
Local Open Scope N_scope.

Lemma held_ctl es : Forall ctl_effect es -> forall t, held (t ++ es) = held t.
Proof.
  induction 1 as [|e es H F IH]; intro t; [rewrite app_nil_r; reflexivity|].
  change (t ++ e :: es) with (t ++ [e] ++ es). rewrite app_assoc, IH, held_snoc.
  destruct e as [| | | | | |m| | | | |]; try destruct m; try contradiction; reflexivity.
Qed.
Lemma window_ctl es : Forall ctl_effect es -> forall t, window_of (t ++ es) = window_of t.
Proof.
  induction 1 as [|e es H F IH]; intro t; [rewrite app_nil_r; reflexivity|].
  change (t ++ e :: es) with (t ++ [e] ++ es). rewrite app_assoc, IH, window_snoc.
  destruct e; try contradiction; reflexivity.
Qed.
Lemma active_ctl es : Forall ctl_effect es -> forall t, active_of (t ++ es) = active_of t.
Proof.
  induction 1 as [|e es H F IH]; intro t; [rewrite app_nil_r; reflexivity|].
  change (t ++ e :: es) with (t ++ [e] ++ es). rewrite app_assoc, IH, active_snoc.
  destruct e; try contradiction; reflexivity.
Qed.
Lemma current_ctl es : Forall ctl_effect es -> forall t, current (t ++ es) = current t.
Proof.
  induction 1 as [|e es H F IH]; intro t; [rewrite app_nil_r; reflexivity|].
  change (t ++ e :: es) with (t ++ [e] ++ es). rewrite app_assoc, IH, current_snoc.
  destruct e; try contradiction; reflexivity.
Qed.
Lemma fit_ctl search es : Forall ctl_effect es -> forall t, contexts_fit search t -> contexts_fit search (t ++ es).
Proof.
  induction 1 as [|e es H F IH]; intros t C; [rewrite app_nil_r; exact C|].
  change (t ++ e :: es) with (t ++ [e] ++ es). rewrite app_assoc. apply IH.
  apply contexts_fit_snoc; [exact C|]. intros l E. subst e. contradiction.
Qed.
Lemma current_tried t n : current t = Some n -> tried t n.
Proof.
  induction t as [|e t IH] using rev_ind; [discriminate|]. rewrite current_snoc. intro H.
  assert (G : current t = Some n -> tried (t ++ [e]) n) by (intro; apply tried_mono; auto).
  destruct e as [name ok| | | | | | | | | | |]; cbn [current_step] in H; try (apply G; exact H).
  assert (T : tried (t ++ [FLoad name ok]) name) by (exists ok; apply in_or_app; right; left; reflexivity).
  destruct (current t) as [m|] eqn:E; [destruct ok|]; try (injection H as ->; exact T).
  apply G. exact H.
Qed.
Lemma right_same search t t' g l : active_of t' = active_of t -> window_of t' = window_of t ->
  right_contexts search t g l -> right_contexts search t' g l.
Proof. unfold right_contexts. intros -> ->. auto. Qed.

Section Client.
Variable search : text -> text -> bool.
Variable typer : text -> list stroke.
Variable key_name : key -> option text.
Variable system : text.
Variable sent : nat -> bool.
Variable focus : nat -> option window.
Variable disk : nat -> files.
(** There is no file without a name. *)
Hypothesis no_name : forall n, fs_parse (disk n) [] = None.

Notation send := (send sent).
Notation update_file := (update_file disk).
Notation load_config := (load_config disk).
Notation update_active_contexts := (update_active_contexts search focus).
Notation send_active_contexts := (send_active_contexts sent).
Notation send_config := (send_config search sent focus).
Notation on_control_message := (on_control_message search typer sent focus disk).
Notation on_server_message := (on_server_message key_name system).
Notation loop_turn := (loop_turn search typer key_name system sent focus disk).
Notation client_step := (client_step search typer key_name system sent focus disk).
Notation client_run := (client_run search typer key_name system sent focus disk).
Notation client_main := (client_main search typer key_name system sent focus disk).

Record X (c : client) : Prop := mkX {
  x_fit : contexts_fit search (cl_trace c);
  x_win : window_of (cl_trace c) = cl_window c;
  x_act : active_of (cl_trace c) = cl_active c;
  x_cur : current (cl_trace c) = Some (cf_name (cl_file c));
  x_name : cf_name (cl_file c) <> [];
  x_rec : Forall (fun f => tried (cl_trace c) (cf_name f)) (cl_recent c)
}.
Definition agree (c : client) : Prop :=
  cl_broken c = false ->
    held (cl_trace c) = (Some (cl_config c), cl_active_contexts c) /\
    right_contexts search (cl_trace c) (cl_config c) (cl_active_contexts c).

Lemma X_quiet c c' : quiet c c' -> X c -> X c'.
Proof.
  intros [(es & T & F) A B C D E G] [X1 X2 X3 X4 X5 X6]. split; rewrite ?T.
  - apply fit_ctl; assumption.
  - rewrite window_ctl by exact F. congruence.
  - rewrite active_ctl by exact F. congruence.
  - rewrite current_ctl by exact F. congruence.
  - congruence.
  - rewrite B. eapply Forall_impl; [|exact X6]. intros f. apply tried_mono.
Qed.
Lemma agree_quiet c c' : quiet c c' -> agree c -> agree c'.
Proof.
  intros [(es & T & F) A B C D E G] H BR. destruct (H (G BR)) as [H1 H2].
  unfold cl_config in *. rewrite T, A, C, held_ctl by exact F. split; [exact H1|].
  eapply right_same; [apply active_ctl; exact F|apply window_ctl; exact F|exact H2].
Qed.

(** Reading files. *)
Definition load_effect (e : ceffect) : Prop := match e with FLoad _ _ => True | _ => False end.
Lemma load_keeps es : Forall load_effect es -> forall t,
  held (t ++ es) = held t /\ window_of (t ++ es) = window_of t /\ active_of (t ++ es) = active_of t /\
  (contexts_fit search t -> contexts_fit search (t ++ es)).
Proof.
  induction 1 as [|e es H F IH]; intro t; [rewrite app_nil_r; auto|].
  change (t ++ e :: es) with (t ++ [e] ++ es). rewrite app_assoc.
  destruct (IH (t ++ [e])) as (A & B & C & D). rewrite A, B, C, held_snoc, window_snoc, active_snoc.
  destruct e; try contradiction. repeat split. intro Q. apply D. apply contexts_fit_snoc; [exact Q|discriminate].
Qed.
Lemma agree_load c c' es : cl_trace c' = cl_trace c ++ es -> Forall load_effect es ->
  cl_config c' = cl_config c -> cl_active_contexts c' = cl_active_contexts c ->
  cl_broken c' = cl_broken c -> agree c -> agree c'.
Proof.
  intros T F A B C H BR. rewrite C in BR. destruct (H BR) as [H1 H2].
  destruct (load_keeps es F (cl_trace c)) as (K1 & K2 & K3 & _).
  rewrite T, A, B, K1. split; [exact H1|]. eapply right_same; eassumption.
Qed.

(** What reading files leaves alone. *)
Record loads (c c' : client) : Prop := mkL {
  l_trace : exists es, cl_trace c' = cl_trace c ++ es /\ Forall load_effect es;
  l_contexts : cl_active_contexts c' = cl_active_contexts c;
  l_active : cl_active c' = cl_active c;
  l_window : cl_window c' = cl_window c;
  l_broken : cl_broken c' = cl_broken c;
  l_down : cl_down c' = cl_down c;
  l_ub : cl_ub c' = cl_ub c;
  l_controls : cl_controls c' = cl_controls c
}.
Lemma agree_loads c c' : loads c c' -> cl_config c' = cl_config c -> agree c -> agree c'.
Proof.
  intros [(es & T & F) A B C D _ _ _] E. eapply agree_load; eassumption.
Qed.

Lemma update_file_loads check c : loads c (snd (update_file check c)).
Proof.
  unfold Client.update_file, file_update. set (t := latest_time _ _ _).
  destruct (check && (t =? cf_time (cl_file c))%Z).
  - split; try reflexivity. exists []. rewrite app_nil_r. auto.
  - destruct (fs_parse (disk (cl_updates c)) (cf_name (cl_file c))); cbn [snd loaded];
      (split; try reflexivity; eexists [_]; split; [reflexivity|constructor; [exact I|constructor]]).
Qed.
Lemma update_file_X check c : X c -> X (snd (update_file check c)).
Proof.
  intros [X1 X2 X3 X4 X5 X6]. unfold Client.update_file, file_update. set (t := latest_time _ _ _).
  destruct (check && (t =? cf_time (cl_file c))%Z); [split; assumption|].
  destruct (fs_parse (disk (cl_updates c)) (cf_name (cl_file c))); cbn [snd loaded cf_name];
    (split; cbn [emit cl_trace cl_window cl_active cl_file cl_recent c_updates c_file cf_name];
     [apply contexts_fit_snoc; [exact X1|discriminate]|rewrite window_snoc; exact X2|rewrite active_snoc; exact X3
     |rewrite current_snoc, X4; reflexivity|exact X5
     |eapply Forall_impl; [|exact X6]; intros f; apply tried_mono]).
Qed.
Lemma update_file_same check c : fst (update_file check c) = false ->
  cl_config (snd (update_file check c)) = cl_config c.
Proof.
  unfold Client.update_file, file_update. set (t := latest_time _ _ _).
  destruct (check && (t =? cf_time (cl_file c))%Z); [reflexivity|].
  destruct (fs_parse (disk (cl_updates c)) (cf_name (cl_file c))); [discriminate|reflexivity].
Qed.

Lemma swap_recent_spec name f l : forall y l', swap_recent name f l = Some (y, l') ->
  cf_name y = name /\ In y l /\ (forall z, In z l' -> z = f \/ In z l).
Proof.
  induction l as [|x l IH]; intros y l' H; [discriminate|]. cbn [swap_recent] in H.
  destruct (text_eqb (cf_name x) name) eqn:E.
  - injection H as <- <-. apply text_eqb_eq in E. split; [exact E|]. split; [left; reflexivity|].
    intros z [Q|Q]; [left; congruence|right; right; exact Q].
  - destruct (swap_recent name f l) as [[y' r']|] eqn:Q; [|discriminate]. injection H as <- <-.
    destruct (IH _ _ eq_refl) as (A & B & C). split; [exact A|]. split; [right; exact B|].
    intros z [Z|Z]; [right; left; exact Z|]. destruct (C z Z); [left|right; right]; assumption.
Qed.

Lemma load_config_loads name c : loads c (snd (load_config name c)).
Proof.
  unfold Client.load_config. destruct (text_eqb (cf_name (cl_file c)) name); [apply update_file_loads|].
  destruct (swap_recent name (cl_file c) (cl_recent c)) as [[y l]|].
  - destruct (update_file_loads false (c_file y (c_recent l c))) as [T A B C D E F G].
    split; assumption.
  - unfold file_load, file_update. cbn [cf_name cf_time cf_config].
    set (t := latest_time _ _ _).
    destruct (true && (t =? -1)%Z).
    + cbn [loaded]. destruct (cf_name (cl_file c)) eqn:N; cbn [c_updates cl_file]; rewrite N; cbn [snd];
        (split; try reflexivity; exists []; rewrite app_nil_r; auto).
    + destruct (fs_parse (disk (cl_updates c)) name); cbn [loaded emit c_updates cl_file];
        destruct (cf_name (cl_file c)) eqn:N; cbn [snd];
        (split; try reflexivity; eexists [_]; split; [reflexivity|constructor; [exact I|constructor]]).
Qed.

Lemma load_config_X name c : X c -> switches_work (cl_trace (snd (load_config name c))) ->
  X (snd (load_config name c)) /\
  (fst (load_config name c) = false -> cl_config (snd (load_config name c)) = cl_config c).
Proof.
  intros HX SW. pose proof HX as [X1 X2 X3 X4 X5 X6]. unfold Client.load_config in *.
  destruct (text_eqb (cf_name (cl_file c)) name) eqn:E.
  { split; [apply update_file_X; exact HX|apply update_file_same]. }
  apply text_eqb_neq in E.
  destruct (swap_recent name (cl_file c) (cl_recent c)) as [[y l]|] eqn:SWP.
  - destruct (swap_recent_spec _ _ _ _ _ SWP) as (YN & YI & LI).
    assert (TY : tried (cl_trace c) name).
    { rewrite Forall_forall in X6. rewrite <- YN. apply X6. exact YI. }
    assert (TR : Forall (fun f => tried (cl_trace c) (cf_name f)) l).
    { apply Forall_forall. intros z Z. destruct (LI z Z) as [Q|Q].
      - subst z. apply current_tried. exact X4.
      - rewrite Forall_forall in X6. apply X6. exact Q. }
    unfold Client.update_file, file_update in *.
    cbn [c_file c_recent cl_file cl_updates andb cl_trace fst snd] in *.
    destruct (fs_parse (disk (cl_updates c)) (cf_name y)) as [g|] eqn:P; cbn [loaded fst snd cf_name] in *.
    + split; [|discriminate].
      split; cbn [emit cl_trace cl_window cl_active cl_file cl_recent c_updates c_file c_recent cf_name].
      * apply contexts_fit_snoc; [exact X1|discriminate].
      * rewrite window_snoc. exact X2.
      * rewrite active_snoc. exact X3.
      * rewrite current_snoc, X4. reflexivity.
      * rewrite YN. intro Q. rewrite YN, Q, no_name in P. discriminate.
      * eapply Forall_impl; [|exact TR]. intros f. apply tried_mono.
    + exfalso. rewrite YN in SW. destruct (SW (cl_trace c) name [] eq_refl) as [Q|Q].
      * congruence.
      * contradiction.
  - unfold file_load, file_update in *. cbn [cf_name cf_time cf_config] in *.
    set (t := latest_time _ _ _) in *.
    destruct (true && (t =? -1)%Z).
    + cbn [loaded c_updates cl_file fst snd] in *. destruct (cf_name (cl_file c)) as [|a b] eqn:N; [congruence|].
      cbn [snd]. split; [|reflexivity]. split; try assumption.
      * cbn [cl_file c_updates cl_trace]. rewrite N. exact X4.
      * cbn [cl_file c_updates]. rewrite N. discriminate.
    + destruct (fs_parse (disk (cl_updates c)) name) as [g|] eqn:P;
        cbn [loaded emit c_updates cl_file fst snd] in *;
        (destruct (cf_name (cl_file c)) as [|a b] eqn:N; [congruence|]); cbn [snd].
      * split; [|discriminate].
        split; cbn [emit cl_trace cl_window cl_active cl_file cl_recent c_updates c_file c_recent cf_name].
        -- apply contexts_fit_snoc; [exact X1|discriminate].
        -- rewrite window_snoc. exact X2.
        -- rewrite active_snoc. exact X3.
        -- rewrite current_snoc, X4. reflexivity.
        -- intro Q. subst name. rewrite no_name in P. discriminate.
        -- apply Forall_app. split.
           ++ eapply Forall_impl; [|exact X6]. intros f. apply tried_mono.
           ++ constructor; [|constructor]. apply tried_mono. apply current_tried. rewrite N. exact X4.
      * split; [|reflexivity].
        split; cbn [emit cl_trace cl_window cl_active cl_file cl_recent c_updates c_file c_recent cf_name].
        -- apply contexts_fit_snoc; [exact X1|discriminate].
        -- rewrite window_snoc. exact X2.
        -- rewrite active_snoc. exact X3.
        -- rewrite current_snoc, X4, N. reflexivity.
        -- rewrite N. discriminate.
        -- eapply Forall_impl; [|exact X6]. intros f. apply tried_mono.
Qed.

(** ** Sending *)

Lemma X_broken b n c : X c -> X (c_sent b n c).
Proof. intros [X1 X2 X3 X4 X5 X6]. split; assumption. Qed.
Lemma X_emit_sent m c : X c ->
  (forall l, m = SActive l -> exists g, fst (held (cl_trace c)) = Some g /\ right_contexts search (cl_trace c) g l) ->
  X (emit (FSent m) c).
Proof.
  intros [X1 X2 X3 X4 X5 X6] H.
  split; cbn [emit cl_trace cl_window cl_active cl_file cl_recent].
  - apply contexts_fit_snoc; [exact X1|]. intros l E. injection E as ->. apply H. reflexivity.
  - rewrite window_snoc. exact X2.
  - rewrite active_snoc. exact X3.
  - rewrite current_snoc. exact X4.
  - exact X5.
  - eapply Forall_impl; [|exact X6]. intros f. apply tried_mono.
Qed.
(** Sending the right contexts of the configuration the server holds. *)
Lemma send_contexts_X c : X c ->
  (cl_broken c = false -> fst (held (cl_trace c)) = Some (cl_config c) /\
     right_contexts search (cl_trace c) (cl_config c) (cl_active_contexts c)) ->
  X (snd (send_active_contexts c)) /\ agree (snd (send_active_contexts c)).
Proof.
  intros HX H. unfold Client.send_active_contexts, Client.send.
  destruct (cl_broken c) eqn:B; cbn [negb andb snd].
  - split; [apply X_broken; exact HX|]. intro Q. discriminate Q.
  - destruct (H eq_refl) as [H1 H2].
    destruct (sent (cl_sends c)); cbn [snd negb].
    + split.
      * apply X_emit_sent; [apply X_broken; exact HX|]. intros l E. injection E as <-.
        exists (cl_config c). split; assumption.
      * intros _. unfold cl_config in *. cbn [emit cl_trace cl_file cl_active_contexts c_sent].
        rewrite held_snoc. cbn [held_step]. rewrite H1. split; [reflexivity|].
        eapply right_same; [|  |exact H2]; [rewrite active_snoc; reflexivity|rewrite window_snoc; reflexivity].
    + split; [apply X_broken; exact HX|]. intro Q. discriminate Q.
Qed.

(** ** The focused window *)

Lemma right_matching t g w : active_of t = true -> window_of t = w ->
  right_contexts search t g (matching_contexts search w 0 (cfg_contexts g)).
Proof. intros A W. unfold right_contexts. rewrite A, W. apply matching_lists. Qed.

(** The result of looking for the contexts: they are right, and if the function returns
    false, nothing changed. *)
Lemma update_contexts_spec c : X c ->
  let r := update_active_contexts c in
  X (snd r) /\ held (cl_trace (snd r)) = held (cl_trace c) /\
  cl_config (snd r) = cl_config c /\ cl_broken (snd r) = cl_broken c /\
  cl_active (snd r) = cl_active c /\
  (agree c \/ cl_active_contexts c = [] /\ cl_active c = true -> cl_broken c = false ->
     right_contexts search (cl_trace (snd r)) (cl_config c) (cl_active_contexts (snd r))) /\
  (fst r = false -> cl_active_contexts (snd r) = cl_active_contexts c) /\
  (fst r = true -> cl_active c = true).
Proof.
  intros HX. pose proof HX as [X1 X2 X3 X4 X5 X6]. unfold Client.update_active_contexts.
  destruct (cl_active c) eqn:ACT; cbn [negb]; cbv zeta.
  2: { cbn [fst snd]. repeat (split; [first [exact HX|reflexivity|assumption]|]).
       split; [|split; [reflexivity|discriminate]].
       intros [AG|[_ Q]] BR; [|discriminate]. apply (AG BR). }
  set (c1 := match focus (cl_focus c) with
             | Some w => emit (FWindow w) (c_window w (S (cl_focus c)) c)
             | None => c_window (cl_window c) (S (cl_focus c)) c
             end).
  assert (K : X c1 /\ held (cl_trace c1) = held (cl_trace c) /\ cl_config c1 = cl_config c /\
              cl_broken c1 = cl_broken c /\ cl_active_contexts c1 = cl_active_contexts c /\
              cl_active c1 = true /\
              (focus (cl_focus c) = None -> window_of (cl_trace c1) = window_of (cl_trace c))).
  { unfold c1. destruct (focus (cl_focus c)) as [w|].
    - split.
      + split; cbn [emit cl_trace cl_window cl_active cl_file cl_recent c_window].
        * apply contexts_fit_snoc; [exact X1|discriminate].
        * rewrite window_snoc. reflexivity.
        * rewrite active_snoc. rewrite X3. symmetry. exact ACT.
        * rewrite current_snoc. exact X4.
        * exact X5.
        * eapply Forall_impl; [|exact X6]. intros f. apply tried_mono.
      + cbn [emit cl_trace c_window]. rewrite held_snoc. cbn [held_step].
        repeat (split; [first [reflexivity|exact ACT]|]). discriminate.
    - split; [split; try assumption; cbn [c_window cl_trace cl_active]; congruence|].
      repeat (split; [first [reflexivity|exact ACT]|]). reflexivity. }
  destruct K as (K1 & K2 & K3 & K4 & K5 & K6 & K7). pose proof K1 as [Y1 Y2 Y3 Y4 Y5 Y6].
  clearbody c1.
  assert (RM : right_contexts search (cl_trace c1) (cl_config c)
                 (matching_contexts search (cl_window c1) 0 (cfg_contexts (cl_config c1)))).
  { rewrite K3. apply right_matching; [congruence|exact Y2]. }
  rewrite K5.
  assert (STAY : focus (cl_focus c) = None ->
          (agree c \/ cl_active_contexts c = [] /\ true = true) -> cl_active_contexts c <> [] ->
          cl_broken c = false ->
          right_contexts search (cl_trace c1) (cl_config c) (cl_active_contexts c)).
  { intros FN [AG|[Q _]] NE BR; [|contradiction]. destruct (AG BR) as [_ R].
    eapply right_same; [|apply K7; exact FN|exact R]. congruence. }
  destruct (match focus (cl_focus c) with Some _ => false | None => _ end) eqn:SK.
  - cbn [fst snd]. destruct (focus (cl_focus c)) eqn:FO; [discriminate|].
    destruct (cl_active_contexts c) as [|z l] eqn:AC; [discriminate|].
    do 5 (split; [first [assumption|congruence]|]).
    split; [|split; [intro; congruence|discriminate]].
    intros H BR. rewrite K5. apply STAY; [reflexivity|exact H|discriminate|exact BR].
  - set (l := matching_contexts search (cl_window c1) 0 (cfg_contexts (cl_config c1))) in *.
    unfold zlist_eqb. destruct (list_eq_dec Z.eq_dec l (cl_active_contexts c)) as [EQ|NE]; cbn [fst snd].
    + do 5 (split; [first [assumption|congruence]|]).
      split; [|split; [intro; congruence|discriminate]]. intros _ _. rewrite K5, <- EQ. exact RM.
    + split; [split; assumption|]. do 4 (split; [first [assumption|congruence]|]).
      split; [intros _ _; exact RM|split; [discriminate|reflexivity]].
Qed.

(** ** Sending the configuration *)
Lemma send_config_X c : X c -> X (snd (send_config c)) /\ agree (snd (send_config c)) /\
  (fst (send_config c) = false -> cl_broken (snd (send_config c)) = true).
Proof.
  intro HX. unfold Client.send_config, Client.send.
  destruct (cl_broken c) eqn:B; cbn [negb andb].
  { cbn [fst snd]. split; [apply X_broken; exact HX|]. split; [intro Q; discriminate Q|reflexivity]. }
  destruct (sent (cl_sends c)); cbn [negb andb].
  2: { cbn [fst snd]. split; [apply X_broken; exact HX|]. split; [intro Q; discriminate Q|reflexivity]. }
  set (c1 := c_contexts [] _).
  assert (HX1 : X c1).
  { unfold c1. assert (Q : X (emit (FSent (SConfig (cl_config c))) (c_sent false (S (cl_sends c)) c))).
    { apply X_emit_sent; [apply X_broken; exact HX|]. intros l E. discriminate. }
    destruct Q as [Q1 Q2 Q3 Q4 Q5 Q6]. split; assumption. }
  assert (H1 : held (cl_trace c1) = (Some (cl_config c1), [])).
  { unfold c1. cbn [c_contexts c_aliases emit cl_trace c_sent]. rewrite held_snoc. reflexivity. }
  assert (A1 : cl_active_contexts c1 = []) by reflexivity.
  assert (B1 : cl_broken c1 = false) by reflexivity.
  clearbody c1. cbn [fst snd]. split; [|split; [|discriminate]].
  - destruct (cl_active c1) eqn:ACT; [|exact HX1].
    destruct (update_contexts_spec c1 HX1) as (U1 & U2 & U3 & U4 & U5 & U6 & _).
    apply send_contexts_X; [exact U1|]. intros _. rewrite U2, H1, U3. split; [reflexivity|].
    apply U6; [right; auto|exact B1].
  - destruct (cl_active c1) eqn:ACT.
    + destruct (update_contexts_spec c1 HX1) as (U1 & U2 & U3 & U4 & U5 & U6 & _).
      apply send_contexts_X; [exact U1|]. intros _. rewrite U2, H1, U3. split; [reflexivity|].
      apply U6; [right; auto|exact B1].
    + intros _. rewrite H1, A1. split; [reflexivity|]. unfold right_contexts.
      destruct HX1 as [_ _ Q _ _ _]. rewrite Q, ACT. reflexivity.
Qed.

(** ** (De)activation *)
Lemma toggle_X c : X c -> agree c -> X (toggle_active search sent focus c) /\ agree (toggle_active search sent focus c).
Proof.
  intros HX AG. pose proof HX as [X1 X2 X3 X4 X5 X6]. unfold toggle_active.
  set (c1 := emit (FActive (negb (cl_active c))) (c_active (negb (cl_active c)) c)).
  assert (HX1 : X c1).
  { split; cbn [c1 emit cl_trace cl_window cl_active cl_file cl_recent c_active].
    - apply contexts_fit_snoc; [exact X1|discriminate].
    - rewrite window_snoc. exact X2.
    - rewrite active_snoc. reflexivity.
    - rewrite current_snoc. exact X4.
    - exact X5.
    - eapply Forall_impl; [|exact X6]. intros f. apply tried_mono. }
  assert (H1 : cl_broken c = false -> held (cl_trace c1) = (Some (cl_config c1), cl_active_contexts c1)).
  { intro BR. unfold c1. cbn [emit cl_trace c_active]. rewrite held_snoc. apply (AG BR). }
  assert (B1 : cl_broken c1 = cl_broken c) by reflexivity.
  destruct (cl_active c1) eqn:ACT.
  - destruct (update_contexts_spec c1 HX1) as (U1 & U2 & U3 & U4 & U5 & U6 & _).
    apply send_contexts_X; [exact U1|]. intro BR. rewrite U4, B1 in BR.
    rewrite U2, U3, (H1 BR). split; [reflexivity|]. apply U6; [|congruence].
    right. split; [|exact ACT].
    assert (NA : cl_active c = false) by (destruct (cl_active c); [discriminate ACT|reflexivity]).
    destruct (AG BR) as [_ R]. unfold right_contexts in R. rewrite X3, NA in R. exact R.
  - assert (HX2 : X (c_contexts [] c1)) by (destruct HX1; split; assumption).
    apply send_contexts_X; [exact HX2|]. intro BR. change (cl_broken c = false) in BR.
    change (cl_trace (c_contexts [] c1)) with (cl_trace c1).
    change (cl_config (c_contexts [] c1)) with (cl_config c1). rewrite (H1 BR).
    split; [reflexivity|]. unfold right_contexts. destruct HX1 as [_ _ Q _ _ _]. rewrite Q, ACT. reflexivity.
Qed.

(** ** The trace only grows *)
Definition grows (c c' : client) : Prop := exists es, cl_trace c' = cl_trace c ++ es.
Lemma grows_refl c : grows c c.
Proof. exists []. rewrite app_nil_r. reflexivity. Qed.
Lemma grows_trans a b c : grows a b -> grows b c -> grows a c.
Proof. intros [x H] [y H']. exists (x ++ y). rewrite H', H, app_assoc. reflexivity. Qed.
Lemma grows_emit e c : grows c (emit e c).
Proof. exists [e]. reflexivity. Qed.
Lemma grows_quiet c c' : quiet c c' -> grows c c'.
Proof. intros [(es & T & _) _ _ _ _ _ _]. exists es. exact T. Qed.
Lemma grows_loads c c' : loads c c' -> grows c c'.
Proof. intros [(es & T & _) _ _ _ _ _ _ _]. exists es. exact T. Qed.
Lemma grows_switches c c' : grows c c' -> switches_work (cl_trace c') -> switches_work (cl_trace c).
Proof. intros [es T] H. rewrite T in H. eapply switches_prefix. exact H. Qed.
Lemma grows_send m c : grows c (snd (send m c)).
Proof.
  unfold Client.send. destruct (negb (cl_broken c) && sent (cl_sends c)); cbn [snd].
  - exists [FSent m]. reflexivity.
  - exists []. rewrite app_nil_r. reflexivity.
Qed.
Lemma grows_update c : grows c (snd (update_active_contexts c)).
Proof.
  unfold Client.update_active_contexts. destruct (cl_active c); cbn [negb]; [|apply grows_refl].
  destruct (focus (cl_focus c)) as [w|]; cbv zeta.
  - destruct (zlist_eqb _ _); cbn [snd]; exists [FWindow w]; reflexivity.
  - destruct (cl_active_contexts (c_window (cl_window c) (S (cl_focus c)) c));
      [destruct (zlist_eqb _ _)|]; cbn [snd]; exists []; rewrite app_nil_r; reflexivity.
Qed.
Lemma grows_config c : grows c (snd (send_config c)).
Proof.
  unfold Client.send_config. pose proof (grows_send (SConfig (cl_config c)) c) as G.
  destruct (send (SConfig (cl_config c)) c) as [ok c1]. cbn [snd] in G. destruct ok; cbn [negb snd]; [|exact G].
  set (c2 := c_contexts _ _). assert (G2 : grows c c2) by exact G.
  destruct (cl_active c2); [|exact G2].
  eapply grows_trans; [exact G2|]. eapply grows_trans; [apply grows_update|]. apply grows_send.
Qed.
Lemma grows_control s m c : grows c (on_control_message s m c).
Proof.
  assert (D : (exists n, m = QConfig n) \/ (forall n, m <> QConfig n)).
  { destruct m; (left; eexists; reflexivity) || (right; intros ? Hq; discriminate Hq). }
  destruct D as [[n ->]|D]; [|apply grows_quiet, quiet_control; exact D].
  unfold Client.on_control_message. eapply grows_trans; [apply (grows_emit (FAsked s (QConfig n)))|].
  set (c1 := emit _ c). pose proof (grows_loads _ _ (load_config_loads n c1)) as G.
  destruct (load_config n c1) as [ok c2]. cbn [snd] in G. eapply grows_trans; [exact G|].
  destruct ok; [|apply grows_emit]. pose proof (grows_config c2) as G2.
  destruct (send_config c2) as [ok c3]. cbn [snd] in G2. eapply grows_trans; [exact G2|apply grows_emit].
Qed.
Lemma grows_controls s l : forall c, grows c (fold_left (fun c m => on_control_message s m c) l c).
Proof.
  induction l as [|m l IH]; intro c; [apply grows_refl|]. cbn [fold_left].
  eapply grows_trans; [apply grows_control|apply IH].
Qed.
Lemma grows_loop reads l : forall c, grows c (control_loop search typer sent focus disk reads l c).
Proof.
  induction l as [|s l IH]; intro c; cbn [control_loop]; [apply grows_refl|].
  destruct (get_control s (cl_controls c)); [|apply IH]. destruct (reads s) as [ms ok].
  eapply grows_trans; [apply grows_controls|]. eapply grows_trans; [|apply IH].
  destruct ok; [apply grows_refl|]. eexists [_]. reflexivity.
Qed.

(** ** Everything together *)
Definition good (c : client) : Prop := X c /\ agree c.
Lemma good_quiet c c' : quiet c c' -> good c -> good c'.
Proof. intros Q [A B]. split; [eapply X_quiet|eapply agree_quiet]; eassumption. Qed.
Lemma good_control s m c : good c -> switches_work (cl_trace (on_control_message s m c)) ->
  good (on_control_message s m c).
Proof.
  intros G SW. assert (D : (exists n, m = QConfig n) \/ (forall n, m <> QConfig n)).
  { destruct m; (left; eexists; reflexivity) || (right; intros ? Hq; discriminate Hq). }
  destruct D as [[n E]|D]; [|eapply good_quiet; [apply quiet_control; exact D|exact G]]. subst m.
  unfold Client.on_control_message in *.
  assert (G1 : good (emit (FAsked s (QConfig n)) c)) by (eapply good_quiet; [apply quiet_emit; exact I|exact G]).
  set (c1 := emit _ c) in *. clearbody c1. destruct G1 as [HX AG].
  pose proof (load_config_X n c1 HX) as L. pose proof (load_config_loads n c1) as LL.
  destruct (load_config n c1) as [ok c2]. cbn [fst snd] in *.
  assert (SW2 : switches_work (cl_trace c2)).
  { eapply grows_switches; [|exact SW]. destruct ok.
    - pose proof (grows_config c2) as Q. destruct (send_config c2) as [ok c3]. cbn [snd] in Q.
      eapply grows_trans; [exact Q|apply grows_emit].
    - apply grows_emit. }
  destruct (L SW2) as [HX2 SAME]. destruct ok.
  - destruct (send_config_X c2 HX2) as (S1 & S2 & _). destruct (send_config c2) as [ok c3]. cbn [snd] in *.
    eapply good_quiet; [apply quiet_answer|]. split; assumption.
  - eapply good_quiet; [apply quiet_answer|]. split; [exact HX2|].
    eapply agree_loads; [exact LL|apply SAME; reflexivity|exact AG].
Qed.
Lemma good_controls s l : forall c, good c ->
  switches_work (cl_trace (fold_left (fun c m => on_control_message s m c) l c)) ->
  good (fold_left (fun c m => on_control_message s m c) l c).
Proof.
  induction l as [|m l IH]; intros c G SW; [exact G|]. cbn [fold_left] in *. apply IH; [|exact SW].
  apply good_control; [exact G|]. eapply grows_switches; [apply grows_controls|exact SW].
Qed.
Lemma good_loop reads l : forall c, good c ->
  switches_work (cl_trace (control_loop search typer sent focus disk reads l c)) ->
  good (control_loop search typer sent focus disk reads l c).
Proof.
  induction l as [|s l IH]; intros c G SW; cbn [control_loop] in *; [exact G|].
  destruct (get_control s (cl_controls c)); [|apply IH; assumption]. destruct (reads s) as [ms ok].
  set (c1 := fold_left _ ms c) in *. apply IH; [|exact SW].
  assert (Q : quiet c1 (if ok then c1 else emit (FClosed s)
    (c_controls (List.filter (fun x => negb (ct_socket x =? s)) (cl_controls c1)) c1))).
  { destruct ok; [apply quiet_refl|]. apply quiet_emit'; [exact I|apply quiet_controls]. }
  eapply good_quiet; [exact Q|]. apply good_controls; [exact G|]. fold c1.
  eapply grows_switches; [|exact SW]. eapply grows_trans; [apply grows_quiet; exact Q|apply grows_loop].
Qed.
Lemma quiet_servers l : forall c, quiet c (fold_left (fun c m => on_server_message m c) l c).
Proof.
  induction l as [|m l IH]; intro c; [apply quiet_refl|]. cbn [fold_left].
  eapply quiet_trans; [apply quiet_server|apply IH].
Qed.

(** One turn of the loop; when it is left, the files and the trace are still fine. *)
Lemma good_turn t c : good c -> switches_work (cl_trace (snd (loop_turn t c))) ->
  X (snd (loop_turn t c)) /\ (fst (loop_turn t c) = true -> agree (snd (loop_turn t c))).
Proof.
  intros [HX AG] SW. unfold Client.loop_turn in *.
  assert (U : exists b c1, (if tu_auto t then update_file true c else (false, c)) = (b, c1) /\
                           X c1 /\ (b = false -> agree c1)).
  { destruct (tu_auto t).
    - pose proof (update_file_X true c HX) as A. pose proof (update_file_same true c) as B.
      pose proof (update_file_loads true c) as L.
      destruct (update_file true c) as [b c1]. exists b, c1. split; [reflexivity|]. split; [exact A|].
      intro Q. eapply agree_loads; [exact L|apply B; exact Q|exact AG].
    - exists false, c. auto. }
  destruct U as (b & c1 & E & HX1 & AG1). rewrite E in *. clear E.
  assert (U : exists ok c2, (if b then send_config c1 else (true, c1)) = (ok, c2) /\ X c2 /\ agree c2).
  { destruct b.
    - destruct (send_config_X c1 HX1) as (S1 & S2 & _). destruct (send_config c1) as [ok c2].
      exists ok, c2. auto.
    - exists true, c1. auto. }
  destruct U as (ok & c2 & E & HX2 & AG2). rewrite E in *. clear E.
  destruct ok; cbn [negb] in *; [|cbn [fst snd] in *; split; [exact HX2|discriminate]].
  assert (U : exists b' c3 ok c4, update_active_contexts c2 = (b', c3) /\
              (if b' then send_active_contexts c3 else (true, c3)) = (ok, c4) /\ X c4 /\ agree c4).
  { destruct (update_contexts_spec c2 HX2) as (U1 & U2 & U3 & U4 & U5 & U6 & U7 & U8).
    destruct (update_active_contexts c2) as [b' c3]. cbn [fst snd] in *. exists b', c3.
    assert (R : cl_broken c3 = false -> fst (held (cl_trace c3)) = Some (cl_config c3) /\
                  right_contexts search (cl_trace c3) (cl_config c3) (cl_active_contexts c3)).
    { intro BR. rewrite U4 in BR. rewrite U2, U3, (proj1 (AG2 BR)). split; [reflexivity|].
      apply U6; [left; exact AG2|exact BR]. }
    destruct b'.
    - destruct (send_contexts_X c3 U1 R) as [S1 S2]. destruct (send_active_contexts c3) as [ok c4].
      exists ok, c4. auto.
    - exists true, c3. split; [reflexivity|]. split; [reflexivity|]. split; [exact U1|].
      intro BR. destruct (R BR) as [_ R2]. split; [|exact R2]. rewrite U4 in BR.
      rewrite U2, U3, (proj1 (AG2 BR)), (U7 eq_refl). reflexivity. }
  destruct U as (b' & c3 & ok & c4 & E1 & E2 & HX4 & AG4). rewrite E1, E2 in *. clear E1 E2.
  destruct ok; cbn [negb] in *; [|cbn [fst snd] in *; split; [exact HX4|discriminate]].
  pose proof (quiet_servers (fst (tu_server t)) c4) as Q5. set (c5 := fold_left _ _ c4) in *. clearbody c5.
  assert (G5 : good c5) by (eapply good_quiet; [exact Q5|split; assumption]).
  destruct (snd (tu_server t)); cbn [negb fst snd] in *; [|split; [apply G5|discriminate]].
  assert (G6 : good (match tu_accept t with Some s => accept_control s c5 | None => c5 end)).
  { destruct (tu_accept t); [|exact G5]. eapply good_quiet; [apply quiet_accept|exact G5]. }
  set (c6 := match tu_accept t with Some s => _ | None => _ end) in *. clearbody c6.
  destruct (good_loop (tu_control t) (map ct_socket (cl_controls c6)) c6 G6 SW) as [A B]. split; auto.
Qed.

Lemma X_lost c : X c -> X (on_server_disconnected c).
Proof.
  intros [X1 X2 X3 X4 X5 X6].
  split; cbn [on_server_disconnected emit cl_trace cl_window cl_active cl_file cl_recent c_controls c_aliases c_down].
  - apply contexts_fit_snoc; [exact X1|discriminate].
  - rewrite window_snoc. exact X2.
  - rewrite active_snoc. exact X3.
  - rewrite current_snoc. exact X4.
  - exact X5.
  - eapply Forall_impl; [|exact X6]. intros f. apply tried_mono.
Qed.
Lemma grows_toggle c : grows c (toggle_active search sent focus c).
Proof.
  unfold toggle_active. set (c1 := emit _ _).
  eapply grows_trans; [|apply grows_send]. eapply (grows_trans c c1); [exists [FActive (negb (cl_active c))]; reflexivity|].
  destruct (cl_active c1); [apply grows_update|]. exists []. rewrite app_nil_r. reflexivity.
Qed.
Lemma grows_turn t c : grows c (snd (loop_turn t c)).
Proof.
  unfold Client.loop_turn.
  assert (U : exists b c1, (if tu_auto t then update_file true c else (false, c)) = (b, c1) /\ grows c c1).
  { destruct (tu_auto t); [|exists false, c; split; [reflexivity|apply grows_refl]].
    pose proof (grows_loads _ _ (update_file_loads true c)) as L. destruct (update_file true c) as [b c1].
    exists b, c1. auto. }
  destruct U as (b & c1 & E & G1). rewrite E. clear E.
  assert (U : exists ok c2, (if b then send_config c1 else (true, c1)) = (ok, c2) /\ grows c c2).
  { destruct b; [|exists true, c1; auto]. pose proof (grows_config c1) as L.
    destruct (send_config c1) as [ok c2]. exists ok, c2. split; [reflexivity|]. eapply grows_trans; eassumption. }
  destruct U as (ok & c2 & E & G2). rewrite E. clear E. destruct ok; cbn [negb snd]; [|exact G2].
  pose proof (grows_update c2) as L. destruct (update_active_contexts c2) as [b' c3]. cbn [snd] in L.
  assert (G3 : grows c c3) by (eapply grows_trans; eassumption).
  assert (U : exists ok c4, (if b' then send_active_contexts c3 else (true, c3)) = (ok, c4) /\ grows c c4).
  { destruct b'; [|exists true, c3; auto]. pose proof (grows_send (SActive (cl_active_contexts c3)) c3) as L'.
    unfold Client.send_active_contexts. destruct (send (SActive (cl_active_contexts c3)) c3) as [ok c4].
    exists ok, c4. split; [reflexivity|]. eapply grows_trans; eassumption. }
  destruct U as (ok & c4 & E & G4). rewrite E. clear E. destruct ok; cbn [negb snd]; [|exact G4].
  assert (G5 : grows c (fold_left (fun c m => on_server_message m c) (fst (tu_server t)) c4)).
  { eapply grows_trans; [exact G4|]. apply grows_quiet, quiet_servers. }
  destruct (snd (tu_server t)); cbn [negb snd]; [|exact G5].
  eapply grows_trans; [exact G5|]. eapply grows_trans; [|apply grows_loop].
  destruct (tu_accept t); [apply grows_quiet, quiet_accept|apply grows_refl].
Qed.
Lemma grows_connect c : grows c (snd (connect search sent focus c)).
Proof.
  unfold connect. eapply grows_trans; [|apply grows_config]. exists []. rewrite app_nil_r. reflexivity.
Qed.
Lemma grows_step s c : grows c (snd (client_step s c)).
Proof.
  destruct s as [t| | |]; cbn [Client.client_step].
  - pose proof (grows_turn t c) as G. destruct (loop_turn t c) as [ok c1]. cbn [snd] in G.
    destruct ok; [exact G|]. eapply grows_trans; [exact G|].
    eapply grows_trans; [|apply grows_connect]. eexists [FLost]. reflexivity.
  - apply grows_toggle.
  - cbn [snd]. eapply grows_trans; [apply grows_loads, update_file_loads|apply grows_config].
  - cbn [snd]. apply grows_send.
Qed.
Lemma grows_run l : forall c, grows c (client_run l c).
Proof.
  induction l as [|s l IH]; intro c; cbn [Client.client_run]; [apply grows_refl|].
  pose proof (grows_step s c) as G. destruct (client_step s c) as [ok c1]. cbn [snd] in G.
  destruct ok; [|exact G]. eapply grows_trans; [exact G|apply IH].
Qed.
Lemma good_connect c : X c -> good (snd (connect search sent focus c)).
Proof.
  intro HX. unfold connect.
  destruct (send_config_X (c_sent false (cl_sends c) c)) as (A & B & _); [apply X_broken; exact HX|].
  split; assumption.
Qed.
Lemma good_step s c : good c -> switches_work (cl_trace (snd (client_step s c))) ->
  good (snd (client_step s c)).
Proof.
  intros G SW. destruct s as [t| | |]; cbn [Client.client_step snd] in *.
  - pose proof (good_turn t c G) as H. destruct (loop_turn t c) as [ok c1]. cbn [fst snd] in H.
    assert (SW1 : switches_work (cl_trace c1)).
    { destruct ok; [exact SW|]. eapply grows_switches; [|exact SW].
      eapply grows_trans; [|apply grows_connect]. eexists [FLost]. reflexivity. }
    destruct (H SW1) as [A B]. destruct ok; cbn [snd]; [split; auto|].
    apply good_connect. apply X_lost. exact A.
  - apply toggle_X; apply G.
  - destruct (send_config_X (snd (update_file false c))) as (A & B & _); [apply update_file_X; apply G|].
    split; assumption.
  - eapply good_quiet; [|exact G]. apply quiet_send; intros ? Hq; discriminate Hq.
Qed.
Lemma good_run l : forall c, good c -> switches_work (cl_trace (client_run l c)) -> good (client_run l c).
Proof.
  induction l as [|s l IH]; intros c G SW; cbn [Client.client_run] in *; [exact G|].
  pose proof (good_step s c G) as H. destruct (client_step s c) as [ok c1]. cbn [snd] in H.
  destruct ok; [|apply H; exact SW]. apply IH; [|exact SW]. apply H.
  eapply grows_switches; [apply grows_run|exact SW].
Qed.
Lemma good_start name : name <> [] -> fs_time (disk 0) name <> (-1)%Z ->
  good (snd (start_client search sent focus disk name)).
Proof.
  intros NE TM. unfold start_client. apply good_connect. unfold Client.load_config.
  cbn [new_client cl_file no_file cf_name cl_recent swap_recent cl_updates].
  destruct (text_eqb [] name) eqn:E; [apply text_eqb_eq in E; congruence|].
  unfold file_load, file_update. cbn [cf_name cf_time cf_config no_config cfg_includes andb].
  assert (LT : latest_time (disk 0) name [] = fs_time (disk 0) name).
  { unfold latest_time. destruct (_ =? 0)%Z; reflexivity. }
  rewrite LT. destruct (_ =? -1)%Z eqn:Q; [apply Z.eqb_eq in Q; contradiction|].
  destruct (fs_parse (disk 0) name) as [g|];
    cbn [loaded emit c_updates cl_file cf_name c_file fst snd no_file];
    (split; cbn [emit cl_trace cl_window cl_active cl_file cl_recent c_updates c_file cf_name app];
     [|reflexivity|reflexivity|reflexivity|exact NE|constructor]);
    (intros p l q E'; destruct p as [|x [|y p]]; discriminate E').
Qed.
Lemma good_main name l : name <> [] -> fs_time (disk 0) name <> (-1)%Z ->
  switches_work (cl_trace (client_main name l)) -> good (client_main name l).
Proof.
  intros NE TM SW. pose proof (good_start name NE TM) as G. unfold Client.client_main in *.
  destruct (start_client search sent focus disk name) as [ok c]. cbn [snd] in G.
  destruct ok; [|exact G]. apply good_run; assumption.
Qed.

End Client.
