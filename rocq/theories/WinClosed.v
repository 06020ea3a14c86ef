(** Proofs about the server on Windows: what is released when the client disconnects. *)
From Coq Require Import List Arith NArith ZArith Bool Lia.
From Verif Require Import Base Key Match Stage MultiStage Server WinServer WinSpec WinProofs WinKeeps.
Import ListNotations.
Local Open Scope N_scope.
Local Opaque wanted seen fed.

(** * Strokes *)

Definition presses (d : bool) (l : list stroke) (k : key) : bool :=
  fold_left (fun d x => if fst x =? k then negb (snd x) else d) l d.

Lemma settle_key k : is_mouse_button k = false -> forall l h d, presses d (settle h l) k = presses d l k.
Proof.
  intros Hk. unfold presses. induction l as [|[x up] l IH]; intros h d; [reflexivity|]. cbn [settle fold_left fst snd].
  destruct (is_mouse_button x) eqn:Ex.
  - assert ((x =? k) = false) as Hx by (apply N.eqb_neq; intros ->; congruence). rewrite Hx.
    destruct (Bool.eqb (h x) up); cbn [fold_left fst snd]; rewrite ?Hx; apply IH.
  - cbn [fold_left fst snd]. apply IH.
Qed.
Lemma settle_button k : is_mouse_button k = true -> forall l h, presses (h k) (settle h l) k = held_after h l k.
Proof.
  intros Hk. unfold presses. induction l as [|[x up] l IH]; intros h; [reflexivity|]. cbn [settle held_after].
  destruct (is_mouse_button x) eqn:Ex.
  - destruct (Bool.eqb (h x) up) eqn:Eh; [|apply IH]. cbn [fold_left fst snd]. rewrite <- IH. f_equal. unfold hold.
    rewrite (N.eqb_sym k x). reflexivity.
  - cbn [fold_left fst snd]. assert ((x =? k) = false) as -> by (apply N.eqb_neq; intros ->; congruence). apply IH.
Qed.

(** Releasing keys leaves none of them pressed. *)
Definition ups (l : list stroke) : Prop := forall x, In x l -> snd x = true.
Lemma presses_ups k : forall l, ups l -> presses false l k = false.
Proof.
  unfold presses. induction l as [|[x up] l IH]; intros Hu; [reflexivity|]. cbn [fold_left fst snd].
  pose proof (Hu (x, up) (or_introl eq_refl)) as Hx. cbn in Hx. subst up.
  assert ((if x =? k then negb true else false) = false) as -> by (destruct (x =? k); reflexivity).
  apply IH. intros y Hy. apply Hu. right. exact Hy.
Qed.
Lemma presses_released k : forall l d, ups l -> In (k, true) l -> presses d l k = false.
Proof.
  unfold presses. induction l as [|[x up] l IH]; intros d Hu Hk; [contradiction|]. cbn [fold_left fst snd].
  pose proof (Hu (x, up) (or_introl eq_refl)) as Hx. cbn in Hx. subst up.
  assert (ups l) as Hl by (intros y Hy; apply Hu; right; exact Hy).
  destruct (x =? k) eqn:E.
  - cbn [negb]. apply presses_ups. exact Hl.
  - destruct Hk as [Hk|Hk]; [injection Hk as ->; rewrite N.eqb_refl in E; discriminate|]. apply IH; assumption.
Qed.
Lemma held_ups k : forall l h, ups l -> h k = false -> held_after h l k = false.
Proof.
  induction l as [|[x up] l IH]; intros h Hu Hh; [exact Hh|]. cbn [held_after].
  pose proof (Hu (x, up) (or_introl eq_refl)) as Hx. cbn in Hx. subst up.
  assert (ups l) as Hl by (intros y Hy; apply Hu; right; exact Hy).
  destruct (is_mouse_button x); [|apply IH; assumption]. apply IH; [exact Hl|].
  destruct (Bool.eqb (h x) true); [|exact Hh]. unfold hold. destruct (k =? x); [reflexivity|exact Hh].
Qed.
Lemma held_released k : is_mouse_button k = true -> forall l h, ups l -> In (k, true) l -> held_after h l k = false.
Proof.
  intros Hb. induction l as [|[x up] l IH]; intros h Hu Hk; [contradiction|]. cbn [held_after].
  pose proof (Hu (x, up) (or_introl eq_refl)) as Hx. cbn in Hx. subst up.
  assert (ups l) as Hl by (intros y Hy; apply Hu; right; exact Hy).
  destruct Hk as [Hk|Hk].
  - injection Hk as ->. rewrite Hb. apply held_ups; [exact Hl|]. destruct (h k) eqn:Eh; cbn [Bool.eqb].
    + unfold hold. rewrite N.eqb_refl. reflexivity.
    + exact Eh.
  - destruct (is_mouse_button x); apply IH; assumption.
Qed.
Lemma settled_released k c l : ups l -> In (k, true) l -> pressed_after (settle none_held (c ++ l)) k = false.
Proof.
  intros Hu Hk. change (presses false (settle none_held (c ++ l)) k = false).
  destruct (is_mouse_button k) eqn:Hb.
  - change false with (none_held k) at 1. rewrite (settle_button k Hb), held_after_app. apply held_released; assumption.
  - rewrite (settle_key k Hb). unfold presses. rewrite fold_left_app. apply presses_released; assumption.
Qed.

Lemma shown_release k : is_virtual_key k = false -> is_action_key k = false -> k <> k_timeout ->
  shown (ev0 k Up) = [(k, true)].
Proof.
  intros H1 H2 H3. unfold shown. apply N.eqb_neq in H3. cbn [ek es ev0]. rewrite H1, H2, H3. cbn [kstate_eqb].
  rewrite andb_false_r. reflexivity.
Qed.
Lemma shown_ups : forall l, ups (flat_map shown (map (fun k => ev0 k Up) l)).
Proof.
  induction l as [|k l IH]; intros x Hx; [contradiction|]. cbn [map flat_map] in Hx. apply in_app_or in Hx.
  destruct Hx as [Hx|Hx]; [|exact (IH x Hx)]. unfold shown in Hx. destruct (_ || _); [contradiction|].
  destruct Hx as [<-|[]]. reflexivity.
Qed.
Lemma ups_virtual : forall l, no_virtual (map (fun k => ev0 k Up) l) = true.
Proof. induction l as [|k l IH]; [reflexivity|]. cbn. rewrite andb_false_r. exact IH. Qed.

Section Run.
Variable clock : nat -> Z.

(** Disconnecting puts out the releases only. *)
Lemma closed_wanted s : no_virtual (ws_buf s) = true ->
  wanted (ws_trace (w_step clock WClosed s)) =
  wanted (ws_trace s) ++ flat_map shown (map (fun k => ev0 k Up) (m_output_keys_down (ws_stage s))).
Proof.
  intros Hv. cbn [w_step]. unfold w_reset_configuration, w_evaluate_filters. cbn [w_clear_configuration].
  cbn [ws_stage w_start w_flush w_virtual w_stage m_has_device_filters existsb m_stages negb orb].
  change (wanted (ws_trace (w_flush_send_buffer clock (w_release_all_keys s))) =
    wanted (ws_trace s) ++ flat_map shown (map (fun k => ev0 k Up) (m_output_keys_down (ws_stage s)))).
  assert (no_virtual (ws_buf (w_release_all_keys s)) = true) as Hn.
  { cbn. unfold no_virtual. rewrite forallb_app. apply andb_true_intro. split; [exact Hv|apply ups_virtual]. }
  rewrite (proj1 (flush_wanted clock (w_release_all_keys s) Hn)). cbn. rewrite wanted_cons. reflexivity.
Qed.
Lemma closed_empty s : nothing_waits clock s -> ws_buf (w_step clock WClosed s) = [].
Proof. intros H. exact H. Qed.

(** Without Control and delays all is sent at once. *)
Definition sent_at_once (first : bool) (e : event) : bool :=
  negb (ek e =? k_timeout) && (first || negb (is_control_up e)).
Lemma scan_all again : forall rest i s, no_virtual rest = true ->
  match rest with [] => true | e :: r => sent_at_once (i =? 0)%nat e && forallb (sent_at_once false) r end = true ->
  snd (w_scan clock again rest i s) = (i + length rest)%nat.
Proof.
  induction rest as [|e r IHr]; intros i s Hv Ha; [cbn; lia|].
  cbn in Hv. apply andb_prop in Hv. destruct Hv as [Hv Hr]. apply negb_true_iff in Hv.
  apply andb_prop in Ha. destruct Ha as [He Har]. cbn [w_scan].
  assert (forall s1, snd (w_scan clock again r (S i) s1) = (i + length (e :: r))%nat) as A.
  { intros s1. rewrite IHr; [cbn; lia|exact Hr|]. destruct r as [|e' r']; [reflexivity|exact Har]. }
  unfold sent_at_once in He. apply andb_prop in He. destruct He as [Ht He]. apply negb_true_iff in Ht.
  destruct (is_mouse_wheel (ek e) && kstate_eqb (es e) Down); [apply A|].
  destruct (is_action_key (ek e)); [apply A|].
  destruct (is_virtual_key (ek e)); [destruct (kstate_eqb (es e) Down); [discriminate Hv|apply A]|].
  rewrite Ht. destruct (i =? 0)%nat; cbn [negb andb orb] in *; [apply A|].
  apply negb_true_iff in He. rewrite He. apply A.
Qed.
Lemma nothing_waits_plain s : ws_sending s = false -> ws_buf s = [] ->
  ~ In k_timeout (m_output_keys_down (ws_stage s)) ->
  (forall k, In k (tl (m_output_keys_down (ws_stage s))) -> k <> ControlLeft /\ k <> ControlRight_w) ->
  nothing_waits clock s.
Proof.
  intros Hs Hb Ht Hc. unfold nothing_waits, w_flush_send_buffer. cbn [ws_sending w_release_all_keys w_put w_push w_log w_buf].
  rewrite Hs. set (s1 := w_flush false (w_sending true (w_release_all_keys s))).
  assert (ws_buf s1 = map (fun k => ev0 k Up) (m_output_keys_down (ws_stage s))) as Hb1 by (cbn; rewrite Hb; reflexivity).
  change (w_flush_loop clock 9 0 s1) with (w_scan clock (Some (w_flush_loop clock 8)) (ws_buf s1) 0 s1).
  assert (H : snd (w_scan clock (Some (w_flush_loop clock 8)) (ws_buf s1) 0 s1) = length (ws_buf s1)).
  { rewrite Hb1. rewrite scan_all; [reflexivity|apply ups_virtual|].
    destruct (m_output_keys_down (ws_stage s)) as [|k l]; [reflexivity|]. cbn [map].
    apply andb_true_intro. split.
    - unfold sent_at_once. cbn. rewrite andb_true_r. apply negb_true_iff, N.eqb_neq. intros ->. apply Ht. left. reflexivity.
    - apply forallb_forall. intros e He. apply in_map_iff in He. destruct He as (x & <- & Hx). unfold sent_at_once, is_control_up.
      cbn [ek es ev0 kstate_eqb andb orb]. destruct (Hc x Hx) as [H1 H2]. apply N.eqb_neq in H1, H2. rewrite H1, H2.
      cbn. rewrite andb_true_r. apply negb_true_iff, N.eqb_neq. intros ->. apply Ht. right. exact Hx. }
  assert (Hv : no_virtual (ws_buf s1) = true) by (rewrite Hb1; apply ups_virtual).
  destruct (scan_buf clock (Some (w_flush_loop clock 8)) (ws_buf s1) 0 s1 Hv) as (H1 & _).
  destruct (w_scan clock (Some (w_flush_loop clock 8)) (ws_buf s1) 0 s1) as [s' i]. cbn [fst snd] in *.
  cbn [ws_buf w_sending w_buf]. rewrite H1, H. apply skipn_all.
Qed.

End Run.
