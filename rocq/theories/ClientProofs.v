(** Proofs about the client: configuration files, active contexts and the server. *)
From Coq Require Import String Ascii List Arith NArith ZArith Bool Lia.
From Verif Require Import Base Key Text KeyNames ParseSeq Stage Config Serial Client ClientSpec.
Import ListNotations.
Local Open Scope N_scope.

(** * Traces *)

Lemma snoc_split {A} (t p q : list A) e x : t ++ [e] = p ++ x :: q ->
  (q = [] /\ t = p /\ e = x) \/ exists q', q = q' ++ [e] /\ t = p ++ x :: q'.
Proof.
  intro H. destruct q as [|y q] using rev_ind.
  - apply app_inj_tail in H. destruct H; subst. left. auto.
  - right. exists q. change (p ++ x :: q ++ [y]) with (p ++ (x :: q) ++ [y]) in H.
    rewrite app_assoc in H. apply app_inj_tail in H. destruct H; subst. auto.
Qed.

Lemma text_eqb_eq a : forall b, text_eqb a b = true <-> a = b.
Proof.
  induction a as [|x a IH]; intros [|y b]; cbn [text_eqb]; try (split; intro; congruence).
  rewrite andb_true_iff, IH, Ascii.eqb_eq. split; [intros [-> ->]; reflexivity|].
  intro H. injection H as -> ->. auto.
Qed.
Lemma text_eqb_neq a b : text_eqb a b = false <-> a <> b.
Proof.
  rewrite <- text_eqb_eq. destruct (text_eqb a b); split; intro; congruence.
Qed.

(** * Filters *)

Lemma skip_spec p : forall t r, skip p t = Some r <-> t = p ++ r.
Proof.
  induction p as [|c p IH]; intros t r; cbn [skip app].
  - split; intro H; congruence.
  - destruct t as [|d t]; [split; [discriminate|discriminate]|].
    destruct (Ascii.eqb_spec c d) as [E|E].
    + subst. rewrite IH. split; intro H; [subst; reflexivity|injection H; auto].
    + split; [discriminate|]. intro H. injection H as Q _. congruence.
Qed.
Lemma contains_spec p t : contains p t = true <-> exists a b, t = a ++ p ++ b.
Proof.
  induction t as [|c t IH]; cbn [contains].
  - destruct (skip p []) as [r|] eqn:E.
    + apply skip_spec in E. split; [|reflexivity]. intros _. exists [], r. exact E.
    + split; [discriminate|]. intros (a & b & H).
      symmetry in H. apply app_eq_nil in H. destruct H as [_ H].
      assert (S : skip p [] = Some b) by (apply skip_spec; symmetry; exact H). congruence.
  - destruct (skip p (c :: t)) as [r|] eqn:E.
    + apply skip_spec in E. split; [|reflexivity]. intros _. exists [], r. exact E.
    + rewrite IH. split.
      * intros (a & b & H). subst. exists (c :: a), b. reflexivity.
      * intros (a & b & H). destruct a as [|x a].
        -- assert (S : skip p (c :: t) = Some b) by (apply skip_spec; exact H). congruence.
        -- injection H as _ H. exists a, b. exact H.
Qed.

Section Filters.
Variable search : text -> text -> bool.
Lemma filter_accepts whole f t : filter_matches search f t (negb whole) = true <-> accepts search whole f t.
Proof.
  unfold filter_matches, accepts.
  assert (P : matches_uninverted search f t (negb whole) = true <->
              (f_string f = [] \/
               if f_regex f then search (f_string f) t = true
               else if whole then t = f_string f else exists a b, t = a ++ f_string f ++ b)).
  { unfold matches_uninverted. destruct (f_string f) as [|c s] eqn:E.
    - split; [left; reflexivity|reflexivity].
    - destruct (f_regex f).
      + split; [right; assumption|]. intros [H|H]; [discriminate|exact H].
      + destruct whole; cbn [negb].
        * rewrite text_eqb_eq. split; [right; assumption|]. intros [H|H]; [discriminate|exact H].
        * rewrite contains_spec. split; [right; assumption|]. intros [H|H]; [discriminate|exact H]. }
  destruct (f_invert f).
  - rewrite xorb_true_r, negb_true_iff. rewrite <- P.
    destruct (matches_uninverted search f t (negb whole)); split; intro; congruence.
  - rewrite xorb_false_r. exact P.
Qed.
Lemma context_accepts w c : context_matches search w c = true <-> accepts_window search w c.
Proof.
  unfold context_matches, accepts_window. rewrite !andb_true_iff.
  rewrite (filter_accepts true), !(filter_accepts false). tauto.
Qed.

Lemma matching_from w l : forall i,
  increasing (matching_contexts search w i l) /\
  (forall j, In j (matching_contexts search w i l) <->
    (i <= j)%Z /\ exists c, nth_error l (Z.to_nat (j - i)) = Some c /\ accepts_window search w c).
Proof.
  induction l as [|x l IH]; intro i; cbn [matching_contexts].
  - split; [exact I|]. intro j. split; [intros []|]. intros (_ & c & H & _).
    destruct (Z.to_nat (j - i)); discriminate.
  - destruct (IH (i + 1)%Z) as [SO M].
    assert (R : forall j, (i + 1 <= j)%Z -> nth_error (x :: l) (Z.to_nat (j - i)) =
                                         nth_error l (Z.to_nat (j - (i + 1)))).
    { intros j L. replace (Z.to_nat (j - i)) with (S (Z.to_nat (j - (i + 1)))) by lia. reflexivity. }
    destruct (context_matches search w x) eqn:E.
    + apply context_accepts in E. split.
      * destruct (matching_contexts search w (i + 1) l) as [|b r] eqn:Q; [exact I|].
        cbn [increasing]. split; [|exact SO]. assert (B : In b (b :: r)) by (left; reflexivity).
        apply M in B. lia.
      * intro j. cbn [In]. rewrite M. split.
        -- intros [H|(L & c & N & A)].
           ++ subst j. split; [lia|]. exists x. rewrite Z.sub_diag. auto.
           ++ split; [lia|]. exists c. rewrite R by lia. auto.
        -- intros (L & c & N & A). destruct (Z.eq_dec i j) as [Q|Q]; [left; exact Q|right].
           split; [lia|]. exists c. rewrite R in N by lia. auto.
    + assert (NA : ~ accepts_window search w x) by (rewrite <- context_accepts, E; discriminate).
      split; [exact SO|]. intro j. rewrite M. split.
      * intros (L & c & N & A). split; [lia|]. exists c. rewrite R by lia. auto.
      * intros (L & c & N & A). destruct (Z.eq_dec i j) as [Q|Q].
        -- subst j. rewrite Z.sub_diag in N. cbn in N. injection N as ->. contradiction.
        -- split; [lia|]. exists c. rewrite R in N by lia. auto.
Qed.
Lemma matching_lists w g :
  lists_contexts search w g (matching_contexts search w 0 (cfg_contexts g)).
Proof.
  destruct (matching_from w (cfg_contexts g) 0) as [S M]. split; [exact S|].
  intro i. rewrite M, Z.sub_0_r. reflexivity.
Qed.

(** * Reading the trace *)

Lemma contexts_fit_nil : contexts_fit search [].
Proof. intros p l q H. destruct p; discriminate. Qed.
Lemma contexts_fit_snoc t e : contexts_fit search t ->
  (forall l, e = FSent (SActive l) -> exists g, fst (held t) = Some g /\ right_contexts search t g l) ->
  contexts_fit search (t ++ [e]).
Proof.
  intros H N p l q E. apply snoc_split in E. destruct E as [(-> & -> & E)|(q' & -> & E)].
  - apply N. exact E.
  - exact (H p l q' E).
Qed.
End Filters.

Lemma held_snoc t e : held (t ++ [e]) = held_step (held t) e.
Proof. unfold held. rewrite fold_left_app. reflexivity. Qed.
Lemma window_snoc t e : window_of (t ++ [e]) = match e with FWindow w => w | _ => window_of t end.
Proof. unfold window_of. rewrite fold_left_app. reflexivity. Qed.
Lemma active_snoc t e : active_of (t ++ [e]) = match e with FActive b => b | _ => active_of t end.
Proof. unfold active_of. rewrite fold_left_app. reflexivity. Qed.
Lemma current_snoc t e : current (t ++ [e]) = current_step (current t) e.
Proof. unfold current. rewrite fold_left_app. reflexivity. Qed.
Lemma tried_mono t t' n : tried t n -> tried (t ++ t') n.
Proof. intros [ok H]. exists ok. apply in_or_app. left. exact H. Qed.
Lemma switches_prefix t t' : switches_work (t ++ t') -> switches_work t.
Proof.
  intros H p n q E. subst t. apply (H p n (q ++ t')). rewrite <- app_assoc. reflexivity.
Qed.

(** * Operations which do not concern files and contexts *)

Definition ctl_effect (e : ceffect) : Prop :=
  match e with
  | FLoad _ _ | FWindow _ | FActive _ | FLost | FSent (SConfig _) | FSent (SActive _) => False
  | _ => True
  end.
Record quiet (c c' : client) : Prop := Quiet {
  q_trace : exists es, cl_trace c' = cl_trace c ++ es /\ Forall ctl_effect es;
  q_file : cl_file c' = cl_file c;
  q_recent : cl_recent c' = cl_recent c;
  q_contexts : cl_active_contexts c' = cl_active_contexts c;
  q_active : cl_active c' = cl_active c;
  q_window : cl_window c' = cl_window c;
  q_broken : cl_broken c' = false -> cl_broken c = false
}.
Lemma quiet_refl c : quiet c c.
Proof. split; auto. exists []. rewrite app_nil_r. auto. Qed.
Lemma quiet_trans a b c : quiet a b -> quiet b c -> quiet a c.
Proof.
  intros [(e1 & T1 & F1) A1 B1 C1 D1 E1 G1] [(e2 & T2 & F2) A2 B2 C2 D2 E2 G2].
  split; try congruence; [|auto]. exists (e1 ++ e2). rewrite T2, T1, app_assoc.
  split; [reflexivity|]. apply Forall_app. auto.
Qed.
Lemma quiet_emit e c : ctl_effect e -> quiet c (emit e c).
Proof. intro H. split; try reflexivity; auto. exists [e]. auto. Qed.
Lemma quiet_emit' e c c' : ctl_effect e -> quiet c c' -> quiet c (emit e c').
Proof. intros H Q. eapply quiet_trans; [exact Q|]. apply quiet_emit. exact H. Qed.
Lemma quiet_controls l c : quiet c (c_controls l c).
Proof. split; try reflexivity; auto. exists []. rewrite app_nil_r. auto. Qed.
Lemma quiet_down l u c : quiet c (c_down l u c).
Proof. split; try reflexivity; auto. exists []. rewrite app_nil_r. auto. Qed.

Section Client.
Variable search : text -> text -> bool.
Variable typer : text -> list stroke.
Variable key_name : key -> option text.
Variable system : text.
Variable sent : nat -> bool.
Variable focus : nat -> option window.
Variable disk : nat -> files.

Notation send := (send sent).
Notation on_control_message := (on_control_message search typer sent focus disk).
Notation on_server_message := (on_server_message key_name system).

Lemma quiet_send m c : (forall g, m <> SConfig g) -> (forall l, m <> SActive l) ->
  quiet c (snd (send m c)).
Proof.
  intros H1 H2. unfold Client.send. destruct (cl_broken c) eqn:B; cbn [negb andb snd].
  - split; try reflexivity. { exists []. rewrite app_nil_r. auto. } discriminate.
  - destruct (sent (cl_sends c)); cbn [snd].
    + apply quiet_emit'.
      * destruct m; try exact I; [exfalso; eapply H1; reflexivity|exfalso; eapply H2; reflexivity].
      * split; try reflexivity; auto. exists []. rewrite app_nil_r. auto.
    + split; try reflexivity; auto. exists []. rewrite app_nil_r. auto.
Qed.
Lemma quiet_answer s m c : quiet c (answer s m c).
Proof. apply quiet_emit. exact I. Qed.
Lemma quiet_state s k c : quiet c (send_virtual_key_state s k c).
Proof.
  unfold send_virtual_key_state, get_virtual_key_state. destruct (is_virtual_key k); [|apply quiet_answer].
  destruct (nth_error (cl_down c) (N.to_nat (k - first_virtual))); [apply quiet_answer|].
  eapply quiet_trans; [apply quiet_down|apply quiet_answer].
Qed.
Lemma quiet_notify k l : forall c, quiet c (snd (notify_loop k l c)).
Proof.
  induction l as [|x l IH]; intro c; cbn [notify_loop]; [apply quiet_refl|].
  destruct (ct_notify x =? k).
  - specialize (IH (send_virtual_key_state (ct_socket x) k c)).
    destruct (notify_loop k l (send_virtual_key_state (ct_socket x) k c)). cbn [snd] in *.
    eapply quiet_trans; [apply quiet_state|exact IH].
  - specialize (IH c). destruct (notify_loop k l c). exact IH.
Qed.
Lemma quiet_changed k st c : quiet c (on_virtual_key_state_changed k st c).
Proof.
  unfold on_virtual_key_state_changed. destruct (is_virtual_key k); [|apply quiet_refl].
  match goal with |- context [notify_loop k _ ?d] => set (c1 := d) end.
  assert (Q1 : quiet c c1) by (unfold c1; destruct (Nat.ltb _ _); apply quiet_down).
  pose proof (quiet_notify k (cl_controls c1) c1) as Q2.
  destruct (notify_loop k (cl_controls c1) c1) as [l c2]. cbn [snd] in Q2.
  eapply quiet_trans; [exact Q1|]. eapply quiet_trans; [exact Q2|]. apply quiet_controls.
Qed.
Lemma quiet_closed l : forall c, quiet c (fold_left (fun c x => emit (FClosed (ct_socket x)) c) l c).
Proof.
  induction l as [|x l IH]; intro c; [apply quiet_refl|]. cbn [fold_left].
  eapply quiet_trans; [|apply IH]. apply quiet_emit. exact I.
Qed.
Lemma quiet_instance s id c : quiet c (on_set_instance_id s id c).
Proof.
  unfold on_set_instance_id. destruct (get_control s (cl_controls c)) as [x|]; [|apply quiet_refl].
  destruct (text_eqb (ct_id x) id); [apply quiet_refl|].
  eapply quiet_trans; [|apply quiet_controls].
  unfold disconnect_by_instance_id. destruct (trivial_id id); [apply quiet_refl|].
  eapply quiet_trans; [|apply quiet_closed]. apply quiet_controls.
Qed.
Lemma quiet_reply t l : forall c, quiet c (snd (reply_loop t l c)).
Proof.
  induction l as [|x l IH]; intro c; cbn [reply_loop]; [apply quiet_refl|].
  set (c1 := if ct_info x then _ else c).
  assert (Q : quiet c c1) by (unfold c1; destruct (ct_info x); [apply quiet_answer|apply quiet_refl]).
  specialize (IH c1). destruct (reply_loop t l c1) as [[b r] c2]. cbn [snd] in *.
  eapply quiet_trans; eassumption.
Qed.
Lemma quiet_server m c : quiet c (on_server_message m c).
Proof.
  unfold Client.on_server_message. eapply quiet_trans; [apply (quiet_emit (FGot m)); exact I|].
  set (c1 := emit (FGot m) c). destruct m as [i|k st|k name id].
  - destruct (0 <=? i)%Z; [|apply quiet_refl].
    destruct (nth_error _ _); [apply quiet_emit; exact I|apply quiet_refl].
  - apply quiet_changed.
  - pose proof (quiet_reply (key_info_text key_name system k name id (cl_window c1)) (cl_controls c1) c1) as Q.
    destruct (reply_loop _ (cl_controls c1) c1) as [[b l] c2]. cbn [snd] in Q.
    destruct b; [|apply quiet_emit'; [exact I|]]; (eapply quiet_trans; [exact Q|apply quiet_controls]).
Qed.
Lemma quiet_accept s c : quiet c (accept_control s c).
Proof. unfold accept_control. apply quiet_emit'; [exact I|]. apply quiet_controls. Qed.

(** All requests of keymapperctl but the one for another file. *)
Lemma quiet_control s m c : (forall n, m <> QConfig n) -> quiet c (on_control_message s m c).
Proof.
  intro NC. unfold Client.on_control_message.
  eapply quiet_trans; [apply (quiet_emit (FAsked s m)); exact I|]. set (c1 := emit (FAsked s m) c).
  clearbody c1. destruct m as [n|n st|n|id|n| |t|t].
  - apply quiet_state.
  - eapply quiet_trans; [|apply quiet_state]. apply quiet_send; intros ? Hq; discriminate Hq.
  - unfold on_toggle_requested. destruct (_ =? 0); [apply quiet_state|apply quiet_controls].
  - eapply quiet_trans; [apply quiet_instance|apply quiet_state].
  - exfalso. eapply NC. reflexivity.
  - eapply quiet_trans; [|apply quiet_send; intros ? Hq; discriminate Hq]. apply quiet_controls.
  - destruct (parse_injected typer t) as [l|].
    + eapply quiet_trans; [|apply quiet_answer]. apply quiet_send; intros ? Hq; discriminate Hq.
    + apply quiet_answer.
  - destruct (parse_injected typer t) as [l|].
    + eapply quiet_trans; [|apply quiet_answer]. apply quiet_send; intros ? Hq; discriminate Hq.
    + apply quiet_answer.
Qed.

End Client.
