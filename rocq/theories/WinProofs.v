(** Proofs about the server on Windows: what applications see. *)
From Coq Require Import List Arith NArith ZArith Bool Lia.
From Verif Require Import Base Key Match Stage MultiStage Server WinServer WinSpec.
Import ListNotations.
Local Open Scope N_scope.

Lemma wanted_cons x t : wanted (x :: t) = wanted t ++ put_out x.
Proof. unfold wanted. cbn [rev]. rewrite flat_map_app. cbn [flat_map]. rewrite app_nil_r. reflexivity. Qed.
Lemma seen_cons x t : seen (x :: t) = seen t ++ visible x.
Proof. unfold seen. cbn [rev]. rewrite flat_map_app. cbn [flat_map]. rewrite app_nil_r. reflexivity. Qed.
Lemma fed_cons x t : fed (x :: t) = fed t ++ fed_device x.
Proof. unfold fed. cbn [rev]. rewrite flat_map_app. cbn [flat_map]. rewrite app_nil_r. reflexivity. Qed.

Local Opaque wanted seen fed.
Local Arguments proper : simpl never.

(** * Giving an event to the engine *)

(** From [s] to [s'] the strokes [w] were put out and [l] was queued; nothing was sent. *)
Definition ext (s s' : wserver) (l : sequence) (w : list stroke) : Prop :=
  wanted (ws_trace s') = wanted (ws_trace s) ++ w /\ ws_buf s' = ws_buf s ++ l /\
  seen (ws_trace s') = seen (ws_trace s) /\ ws_buttons s' = ws_buttons s /\
  ws_sending s' = ws_sending s /\ ws_flush s' = ws_flush s /\ ws_hooked s' = ws_hooked s /\
  ws_exited s' = ws_exited s /\
  (proper_buttons (ws_trace s') = true -> proper_buttons (ws_trace s) = true /\ forallb proper l = true).

Lemma ext_refl s : ext s s [] [].
Proof. unfold ext. rewrite !app_nil_r. cbn [forallb]. tauto. Qed.
Lemma ext_trans s1 s2 s3 l1 l2 w1 w2 : ext s1 s2 l1 w1 -> ext s2 s3 l2 w2 -> ext s1 s3 (l1 ++ l2) (w1 ++ w2).
Proof.
  unfold ext. intros (a1 & a2 & a3 & a4 & a5 & a6 & a7 & a8 & a9) (b1 & b2 & b3 & b4 & b5 & b6 & b7 & b8 & b9).
  rewrite b1, b2, b3, b4, b5, b6, b7, b8, a1, a2, a3, a4, a5, a6, a7, a8, !app_assoc, forallb_app.
  rewrite andb_true_iff. tauto.
Qed.
Lemma ext_nil s1 s2 s3 l w : ext s1 s2 [] [] -> ext s2 s3 l w -> ext s1 s3 l w.
Proof. intros H1 H2. apply (ext_trans _ _ _ _ _ _ _ H1 H2). Qed.

(** The result of giving the event [e] to the engine: it is intercepted, or passed on while
    nothing has to be sent before it. *)
Definition given (e : event) (s s' : wserver) (b : bool) : Prop :=
  ws_exited s' = true \/
  exists l, ext s s' l (flat_map shown l ++ (if b then [] else shown e)) /\
    (b = false -> ws_flush s = false /\ l = []).

Lemma translated_no e n out : is_translated e n out = false ->
  exists x, out = [x] /\ ek x = ek e /\ kstate_eqb (es x) Up = kstate_eqb (es e) Up /\ n = false.
Proof.
  destruct out as [|x [|y r]]; try discriminate. cbn [is_translated]. intros H.
  apply orb_false_iff in H. destruct H as [H Hn]. apply orb_false_iff in H. destruct H as [Hk Hs].
  exists x. apply negb_false_iff in Hk. apply N.eqb_eq in Hk. split; [reflexivity|]. split; [exact Hk|].
  split; [|exact Hn]. destruct (kstate_eqb (es x) Up), (kstate_eqb (es e) Up); try reflexivity; discriminate.
Qed.

Lemma shown_same x e : ek x = ek e -> kstate_eqb (es x) Up = kstate_eqb (es e) Up ->
  (is_mouse_wheel (ek e) = true -> kstate_eqb (es e) Up = true) -> shown x = shown e.
Proof.
  intros Hk Hs Hw. unfold shown. rewrite Hk, Hs. destruct (is_mouse_wheel (ek e)) eqn:W; cbn [andb].
  - specialize (Hw eq_refl). rewrite Hw in Hs. rewrite Hw.
    assert (kstate_eqb (es x) Down = false) as -> by (destruct (es x); try reflexivity; discriminate).
    assert (kstate_eqb (es e) Down = false) as -> by (destruct (es e); try reflexivity; discriminate).
    reflexivity.
  - reflexivity.
Qed.

Section Run.
Variable clock : nat -> Z.

(** The end of translate_input *)
Lemma core_given reset c n e dev s :
  (is_mouse_wheel (ek e) = true -> kstate_eqb (es e) Up = true) ->
  let '(s', b) := w_translate_core clock reset c n e dev s in
  given e s s' b /\ (b = false -> c = false /\ n = false /\ ek e <> AltRight_w).
Proof.
  intros Hw. unfold w_translate_core.
  set (s0 := if ek e =? k_timeout then s else w_last e s).
  assert (ext s s0 [] []) as H0.
  { subst s0. destruct (ek e =? k_timeout); unfold ext; cbn; rewrite !app_nil_r; tauto. }
  clearbody s0. destruct (m_update e dev (ws_stage s0)) as [m out]. cbv zeta.
  destruct (m_should_exit _); [split; [left; reflexivity|discriminate]|].
  assert (ext s (w_stage m s0) [] []) as H1 by exact H0. clear H0.
  set (s2 := w_stage m s0) in *. clearbody s2.
  assert (exists s1 out1, (match back out with
      | Some r => if ek r =? k_timeout
                  then (w_schedule_timeout clock (ev r) (cancel_timeout_on_up (es r)) s2, pop_back out)
                  else (s2, out)
      | None => (s2, out)
      end) = (s1, out1) /\ ext s s1 [] []) as (s1 & out1 & -> & Hs1).
  { destruct (back out) as [r|]; [destruct (ek r =? k_timeout)|];
      eexists; eexists; (split; [reflexivity|]); try exact H1.
    revert H1. unfold ext. cbn. rewrite wanted_cons, seen_cons. cbn. rewrite !app_nil_r. tauto. }
  set (o := copy_delta e out1). destruct Hs1 as (a1 & a2 & a3 & a4 & a5 & a6 & a7 & a8 & a9).
  destruct (ws_flush (w_log (WFed e dev o) s1) || c || is_translated e n o || (ek e =? AltRight_w)) eqn:Ei.
  { split; [|discriminate]. right. exists o. split; [|discriminate]. unfold ext. cbn.
    rewrite wanted_cons, seen_cons. cbn. rewrite a1, a2, a3, a4, a5, a6, a7, a8, ?app_nil_r, andb_true_iff.
    tauto. }
  apply orb_false_iff in Ei. destruct Ei as [Ei E4]. apply orb_false_iff in Ei. destruct Ei as [Ei E3].
  apply orb_false_iff in Ei. destruct Ei as [E1 E2]. cbn [ws_flush w_log] in E1.
  destruct (translated_no _ _ _ E3) as (x & Eo & Hk & Hs & Hn). apply N.eqb_neq in E4.
  split; [|intros _; split; [exact E2|split; [exact Hn|exact E4]]].
  right. exists []. split; [|intros _; split; [rewrite <- a6; exact E1|reflexivity]].
  unfold ext. cbn. rewrite wanted_cons, seen_cons. cbn. rewrite a1, a2, a3, a4, a5, a6, a7, a8, Eo. cbn.
  rewrite (shown_same x e Hk Hs Hw), ?app_nil_r, andb_true_iff. tauto.
Qed.

(** How translate_input may call itself. *)
Definition recursion (rec : event -> Z -> wserver -> wserver * bool) : Prop :=
  forall e dev s, is_mouse_wheel (ek e) = false ->
    let '(s', b) := rec e dev s in given e s s' b.

Lemma shown_timeout e : ek e = k_timeout -> shown e = [].
Proof. intros H. unfold shown. rewrite H. reflexivity. Qed.

Lemma given_log e s s0 s' b : ext s s0 [] [] -> given e s0 s' b -> given e s s' b.
Proof.
  intros H [G|(l & G & Gb)]; [left; exact G|]. right. exists l. split; [exact (ext_nil _ _ _ _ _ H G)|].
  intros Hb. destruct (Gb Hb) as [H1 H2]. split; [|exact H2].
  destruct H as (_ & _ & _ & _ & _ & <- & _). exact H1.
Qed.

Lemma step_given reset rec e dev s : recursion rec -> is_mouse_wheel (ek e) = false ->
  let '(s', b) := w_translate_step clock reset rec e dev s in
  given e s s' b /\ (b = false -> ek e <> AltRight_w).
Proof.
  intros Hr Hw. unfold w_translate_step.
  destruct (event_eqb e (ws_last s) && _) eqn:E1.
  { split; [|discriminate]. right. exists []. split; [apply ext_refl|discriminate]. }
  destruct (ws_next s && _ && _ && _) eqn:E2.
  { split; [|discriminate]. right. exists []. split; [|discriminate]. unfold ext. cbn.
    rewrite wanted_cons, seen_cons. cbn. rewrite !app_nil_r. tauto. }
  assert (exists s1 c, w_cancel_pending clock rec e dev s = (s1, c) /\
    (ws_exited s1 = true \/ exists l, ext s s1 l (flat_map shown l) /\ (c = false -> l = []))) as
    (s1 & c & -> & H1).
  { unfold w_cancel_pending. destruct (ws_start s) as [t|]; [destruct (kstate_eqb (es e) Down || ws_on_up s)|].
    - destruct (rec _ dev _) as [s1 b1] eqn:Er.
      eexists; eexists; split; [reflexivity|]. cbn [fst].
      specialize (Hr (elapsed_event (clock (ws_ticks s) - t)) dev (w_cancel_timeout (w_tick s)) eq_refl).
      rewrite Er in Hr. apply (given_log _ s) in Hr.
      + destruct Hr as [Hx|(l & Hx & _)]; [left; exact Hx|]. right. exists l. split; [|discriminate].
        destruct b1; [|rewrite (shown_timeout (elapsed_event (clock (ws_ticks s) - t)) eq_refl) in Hx];
          rewrite app_nil_r in Hx; exact Hx.
      + unfold ext. cbn. rewrite wanted_cons, seen_cons. cbn. rewrite !app_nil_r. tauto.
    - eexists; eexists; split; [reflexivity|]. right. exists []. split; [apply ext_refl|reflexivity].
    - eexists; eexists; split; [reflexivity|]. right. exists []. split; [apply ext_refl|reflexivity]. }
  cbn beta iota zeta. set (n := kstate_eqb _ _ && _ && _). set (e' := if n then _ else e).
  assert (is_mouse_wheel (ek e') = false) as Hw' by (subst e'; destruct n; [reflexivity|exact Hw]).
  rewrite Hw'. cbn [andb].
  pose proof (core_given reset c n e' dev s1) as Hc. rewrite Hw' in Hc. specialize (Hc ltac:(discriminate)).
  destruct (w_translate_core clock reset c n e' dev s1) as [s' b]. destruct Hc as [Hg Hb].
  assert (b = false -> e' = e) as He' by (intros H; destruct (Hb H) as (_ & Hn & _); subst e'; rewrite Hn; reflexivity).
  split.
  - destruct Hg as [Hx|(l & Hx & Hl)]; [left; exact Hx|].
    destruct H1 as [Hex|(l1 & Hx1 & Hc1)].
    + left. destruct Hx as (_ & _ & _ & _ & _ & _ & _ & -> & _). exact Hex.
    + right. exists (l1 ++ l). split.
      * pose proof (ext_trans _ _ _ _ _ _ _ Hx1 Hx) as H. rewrite flat_map_app, <- app_assoc.
        destruct b; [exact H|]. rewrite <- (He' eq_refl). exact H.
      * intros Hf. destruct (Hl Hf) as [Hfl ->]. destruct (Hb Hf) as (Hcf & _). rewrite (Hc1 Hcf).
        split; [|reflexivity]. destruct Hx1 as (_ & _ & _ & _ & _ & <- & _). exact Hfl.
  - intros H. destruct (Hb H) as (_ & _ & Ha). rewrite (He' H) in Ha. exact Ha.
Qed.

Lemma recursion_step reset rec : recursion rec -> recursion (w_translate_step clock reset rec).
Proof.
  intros H e dev s Hw. pose proof (step_given reset rec e dev s H Hw) as G.
  destruct (w_translate_step clock reset rec e dev s). exact (proj1 G).
Qed.
Lemma recursion_end : recursion (fun _ _ s => (w_oof s, true)).
Proof.
  intros e dev s _. right. exists []. split; [|discriminate]. unfold ext. cbn. rewrite !app_nil_r. tauto.
Qed.
Lemma recursion_two reset : recursion (w_translate_step clock reset (w_translate_step clock reset (fun _ _ s => (w_oof s, true)))).
Proof. apply recursion_step, recursion_step, recursion_end. Qed.
Lemma translate_given reset e dev s : is_mouse_wheel (ek e) = false ->
  let '(s', b) := w_translate_with clock reset e dev s in
  given e s s' b /\ (b = false -> ek e <> AltRight_w).
Proof. intros Hw. apply step_given; [apply recursion_two|exact Hw]. Qed.


(** * Mouse buttons *)

Definition none_held : key -> bool := fun _ => false.
Fixpoint held_after (held : key -> bool) (l : list stroke) : key -> bool :=
  match l with
  | [] => held
  | (k, up) :: r =>
      if is_mouse_button k then held_after (if Bool.eqb (held k) up then hold k (negb up) held else held) r
      else held_after held r
  end.
Lemma settle_app : forall a b held, settle held (a ++ b) = settle held a ++ settle (held_after held a) b.
Proof.
  induction a as [|[k up] a IH]; intros b held; [reflexivity|]. cbn [app settle held_after].
  destruct (is_mouse_button k); [destruct (Bool.eqb (held k) up)|]; rewrite IH; reflexivity.
Qed.
Lemma held_after_app : forall a b held, held_after held (a ++ b) = held_after (held_after held a) b.
Proof.
  induction a as [|[k up] a IH]; intros b held; [reflexivity|]. cbn [app held_after].
  destruct (is_mouse_button k); apply IH.
Qed.

(** The list of held buttons *)
Definition holds (held : key -> bool) (l : list key) : Prop :=
  NoDup l /\ forall k, held k = existsb (N.eqb k) l.

Lemma find_none (k : key) (l : list key) : find_index (N.eqb k) l = None <-> existsb (N.eqb k) l = false.
Proof.
  induction l as [|x l IH]; cbn; [tauto|]. destruct (k =? x); cbn; [split; discriminate|].
  destruct (find_index (N.eqb k) l); cbn; rewrite <- IH; split; try discriminate; reflexivity.
Qed.
Lemma find_split (k : key) : forall (l : list key) i, find_index (N.eqb k) l = Some i ->
  exists a b : list key, l = a ++ k :: b /\ remove_at i l = a ++ b.
Proof.
  induction l as [|x l IH]; intros i H; [discriminate|]. cbn in H. destruct (k =? x) eqn:Ek.
  - apply N.eqb_eq in Ek. subst x. injection H as <-. exists [], l. split; reflexivity.
  - destruct (find_index (N.eqb k) l) as [j|] eqn:Ej; [|discriminate]. injection H as <-.
    destruct (IH j eq_refl) as (a & b & -> & Hr). exists (x :: a), b. split; [reflexivity|].
    cbn [remove_at app]. f_equal. exact Hr.
Qed.

Lemma existsb_mid (x k : key) a b : NoDup (a ++ k :: b) ->
  existsb (N.eqb x) (a ++ b) = if x =? k then false else existsb (N.eqb x) (a ++ k :: b).
Proof.
  intros Hn. rewrite !existsb_app. cbn [existsb]. destruct (x =? k) eqn:E; [|reflexivity].
  apply N.eqb_eq in E. subst x. apply NoDup_remove_2 in Hn. rewrite <- existsb_app.
  destruct (existsb (N.eqb k) (a ++ b)) eqn:Ex; [|exact Ex]. exfalso. apply Hn.
  apply existsb_exists in Ex. destruct Ex as (y & Hy & Ey). apply N.eqb_eq in Ey. subst y. exact Hy.
Qed.

(** prevent_button_repeat lets through what [settle] keeps. *)
Lemma prevent_settle e held l : holds held l -> proper e = true ->
  let '(p, l') := prevent_button_repeat e l in
  let st := (ek e, kstate_eqb (es e) Up) in
  settle held [st] = (if p then [] else [st]) /\ holds (held_after held [st]) l'.
Proof.
  intros [Hn Hh] Hp. unfold prevent_button_repeat. cbn [settle held_after].
  destruct (is_mouse_button (ek e)) eqn:Hb; cbn [negb]; [|split; [reflexivity|split; [exact Hn|exact Hh]]].
  assert (es e = Up \/ es e = Down) as Hs.
  { unfold proper in Hp. rewrite Hb in Hp. cbn in Hp. destruct (es e); try discriminate; tauto. }
  rewrite (Hh (ek e)). destruct (find_index (N.eqb (ek e)) l) as [i|] eqn:Ef.
  - assert (existsb (N.eqb (ek e)) l = true) as Hx.
    { destruct (existsb (N.eqb (ek e)) l) eqn:Ex; [reflexivity|]. apply find_none in Ex.
      rewrite Ex in Ef. discriminate. }
    rewrite Hx. destruct Hs as [-> | ->]; cbn [kstate_eqb Bool.eqb negb].
    + destruct (find_split _ _ _ Ef) as (a & b & El & Er).  rewrite Er. rewrite El in Hn, Hh. split; [reflexivity|].
      split; [exact (NoDup_remove_1 _ _ _ Hn)|]. intros k. unfold hold.
      etransitivity; [|symmetry; exact (existsb_mid k (ek e) a b Hn)].
      destruct (k =? ek e); [reflexivity|apply Hh].
    + split; [reflexivity|]. split; [exact Hn|exact Hh].
  - apply find_none in Ef. rewrite Ef. destruct Hs as [-> | ->]; cbn [kstate_eqb Bool.eqb negb].
    + split; [reflexivity|]. split; [exact Hn|exact Hh].
    + split; [reflexivity|]. split.
      * clear -Hn Ef. induction l as [|x l IH]; [repeat constructor; tauto|]. cbn in *.
        apply orb_false_iff in Ef. destruct Ef as [E1 E2]. inversion Hn; subst. constructor.
        -- rewrite in_app_iff. intros [H|[H|[]]]; [tauto|]. subst x. rewrite N.eqb_refl in E1. discriminate.
        -- apply IH; assumption.
      * intros k. unfold hold. rewrite existsb_app. cbn [existsb]. rewrite orb_false_r.
        destruct (k =? ek e) eqn:E; [rewrite orb_true_r; reflexivity|]. rewrite orb_false_r. apply Hh.
Qed.

(** * The queue *)

(** Nothing more is claimed after an exit or a strange event for a button. *)
Definition bad (s : wserver) : Prop := ws_exited s = true \/ proper_buttons (ws_trace s) = false.

(** What was put out was sent or passed on, or waits in the queue from [i] on. *)
Definition queued (i : nat) (s : wserver) : Prop :=
  (i <= length (ws_buf s))%nat /\ forallb proper (skipn i (ws_buf s)) = true /\
  exists c, wanted (ws_trace s) = c ++ flat_map shown (skipn i (ws_buf s)) /\
    seen (ws_trace s) = settle none_held c /\ holds (held_after none_held c) (ws_buttons s).

Lemma ext_bad s s' l w : ext s s' l w -> bad s -> bad s'.
Proof.
  intros (_ & _ & _ & _ & _ & _ & _ & H8 & H9) [H|H]; [left; congruence|]. right.
  destruct (proper_buttons (ws_trace s')); [|reflexivity]. destruct (H9 eq_refl). congruence.
Qed.
Lemma given_bad e s s' b : given e s s' b -> bad s -> bad s'.
Proof. intros [H|(l & H & _)] Hb; [left; exact H|exact (ext_bad _ _ _ _ H Hb)]. Qed.

Lemma ext_queued s s' l i : ext s s' l (flat_map shown l) -> queued i s -> bad s' \/ queued i s'.
Proof.
  intros (H1 & H2 & H3 & H4 & _ & _ & _ & _ & H9) (Hi & Hp & c & Hc & Hs & Hh).
  destruct (proper_buttons (ws_trace s')) eqn:Ep; [|left; right; exact Ep]. right.
  destruct (H9 eq_refl) as [_ Hl]. unfold queued. rewrite H2, app_length, skipn_app.
  replace (i - length (ws_buf s))%nat with 0%nat by lia. cbn [skipn].
  split; [lia|]. rewrite forallb_app, Hp, Hl. split; [reflexivity|]. exists c.
  rewrite H1, Hc, H3, H4, flat_map_app, <- app_assoc. tauto.
Qed.

Lemma shown_virtual e : is_virtual_key (ek e) = true -> shown e = [].
Proof. intros H. unfold shown. rewrite H. reflexivity. Qed.
Lemma virtual_not_wheel k : is_virtual_key k = true -> is_mouse_wheel k = false.
Proof.
  unfold is_virtual_key, is_mouse_wheel, in_range, first_virtual, last_virtual, WheelUp, WheelRight.
  intros H. apply andb_prop in H. destruct H as [H _]. apply N.leb_le in H.
  apply andb_false_iff. right. apply N.leb_gt. lia.
Qed.

(** Pressing or releasing a virtual key *)
Lemma virtual_ext reset k st s : is_virtual_key k = true ->
  let s' := w_set_virtual_with (w_translate_with clock reset) k st s in
  ws_exited s' = true \/ exists l, ext s s' l (flat_map shown l).
Proof.
  intros Hk. cbn zeta. unfold w_set_virtual_with. rewrite Hk.
  assert (forall st' s1 st2, ext s s1 [] [] ->
    ws_exited (w_log (WVirtual k st') (fst (w_translate_with clock reset (ev0 k st2) any_device s1))) = true \/
    exists l, ext s (w_log (WVirtual k st') (fst (w_translate_with clock reset (ev0 k st2) any_device s1))) l (flat_map shown l)) as A.
  { intros st' s1 st2 H1. pose proof (translate_given reset (ev0 k st2) any_device s1 (virtual_not_wheel k Hk)) as G.
    destruct (w_translate_with clock reset (ev0 k st2) any_device s1) as [s' b]. destruct G as [G _]. cbn [fst].
    destruct G as [G|(l & G & _)]; [left; exact G|]. right. exists l.
    assert (ext s1 s' l (flat_map shown l)) as G'.
    { destruct b; [|rewrite (shown_virtual (ev0 k st2) Hk) in G]; rewrite app_nil_r in G; exact G. }
    pose proof (ext_nil _ _ _ _ _ H1 G') as H. revert H. unfold ext. cbn. rewrite wanted_cons, seen_cons. cbn.
    rewrite !app_nil_r. tauto. }
  destruct (find_index (N.eqb k) (ws_virtual s)); [destruct (negb (kstate_eqb st Down))|destruct (negb (kstate_eqb st Up))].
  - apply A. unfold ext. cbn. rewrite !app_nil_r. tauto.
  - right. exists []. apply ext_refl.
  - apply A. unfold ext. cbn. rewrite !app_nil_r. tauto.
  - right. exists []. apply ext_refl.
Qed.
Lemma virtual_bad reset k st s : is_virtual_key k = true -> bad s ->
  bad (w_set_virtual_with (w_translate_with clock reset) k st s).
Proof.
  intros Hk Hb. destruct (virtual_ext reset k st s Hk) as [H|(l & H)]; [left; exact H|exact (ext_bad _ _ _ _ H Hb)].
Qed.


(** * Sending *)

Lemma skipn_next {A} : forall (l : list A) i x r, x :: r = skipn i l -> r = skipn (S i) l /\ (S i <= length l)%nat.
Proof.
  induction l as [|y l IH]; intros [|i] x r H; cbn in H; try discriminate.
  - injection H as -> ->. cbn. split; [reflexivity|lia].
  - destruct (IH i x r H) as [H1 H2]. cbn [length]. split; [exact H1|lia].
Qed.

Lemma queued_skip e r i s : e :: r = skipn i (ws_buf s) -> shown e = [] -> queued i s -> queued (S i) s.
Proof.
  intros Hr He (Hi & Hp & c & Hc & Hs & Hh). destruct (skipn_next _ _ _ _ Hr) as [H1 H2].
  split; [exact H2|]. rewrite <- H1. rewrite <- Hr in Hp, Hc. cbn in Hp, Hc. rewrite He in Hc.
  apply andb_prop in Hp. split; [exact (proj2 Hp)|]. exists c. tauto.
Qed.

Lemma send_same e s : ws_buf (w_send e s) = ws_buf s /\ ws_sending (w_send e s) = ws_sending s /\
  ws_flush (w_send e s) = ws_flush s /\ ws_hooked (w_send e s) = ws_hooked s /\
  ws_exited (w_send e s) = ws_exited s /\
  proper_buttons (ws_trace (w_send e s)) = proper_buttons (ws_trace s).
Proof.
  unfold w_send. destruct (prevent_button_repeat e (ws_buttons s)) as [p l]. destruct p; cbn; tauto.
Qed.

Lemma queued_send e r i s : e :: r = skipn i (ws_buf s) -> shown e = [(ek e, kstate_eqb (es e) Up)] ->
  queued i s -> queued (S i) (w_send e s).
Proof.
  intros Hr He (Hi & Hp & c & Hc & Hs & Hh). destruct (skipn_next _ _ _ _ Hr) as [H1 H2].
  rewrite <- Hr in Hp, Hc. cbn in Hp, Hc. rewrite He in Hc. apply andb_prop in Hp. destruct Hp as [Hp Hr'].
  pose proof (prevent_settle e _ _ Hh Hp) as P. unfold queued.
  unfold w_send. destruct (prevent_button_repeat e (ws_buttons s)) as [p l]. destruct P as [P1 P2].
  destruct p; cbn [ws_buf ws_trace ws_buttons w_buttons w_log]; rewrite <- H1; (split; [exact H2|]); (split; [exact Hr'|]);
    exists (c ++ [(ek e, kstate_eqb (es e) Up)]); rewrite <- app_assoc, settle_app, held_after_app, P1.
  - rewrite app_nil_r. tauto.
  - rewrite wanted_cons, seen_cons. cbn. rewrite app_nil_r, Hs. tauto.
Qed.

Definition sent_up_to (s s' : wserver) (i : nat) : Prop :=
  bad s' \/ queued i s' /\ (ws_flush s' = true \/ i = length (ws_buf s')) /\
    ws_sending s' = ws_sending s /\ ws_hooked s' = ws_hooked s.

Lemma sent_via s s1 s' i : ws_sending s1 = ws_sending s -> ws_hooked s1 = ws_hooked s ->
  sent_up_to s1 s' i -> sent_up_to s s' i.
Proof. unfold sent_up_to. intros -> ->. tauto. Qed.

Lemma shown_wheel e : is_mouse_wheel (ek e) && kstate_eqb (es e) Down = true -> shown e = [].
Proof. intros H. unfold shown. rewrite H, orb_true_r. reflexivity. Qed.
Lemma shown_action e : is_action_key (ek e) = true -> shown e = [].
Proof. intros H. unfold shown. rewrite H, orb_true_r. reflexivity. Qed.

Lemma schedule_same v s : ws_buf (w_schedule_flush v s) = ws_buf s /\
  ws_sending (w_schedule_flush v s) = ws_sending s /\ ws_flush (w_schedule_flush v s) = true /\
  ws_hooked (w_schedule_flush v s) = ws_hooked s /\ ws_exited (w_schedule_flush v s) = ws_exited s /\
  ws_buttons (w_schedule_flush v s) = ws_buttons s /\
  proper_buttons (ws_trace (w_schedule_flush v s)) = proper_buttons (ws_trace s) /\
  wanted (ws_trace (w_schedule_flush v s)) = wanted (ws_trace s) /\
  seen (ws_trace (w_schedule_flush v s)) = seen (ws_trace s).
Proof.
  unfold w_schedule_flush. destruct (ws_flush s) eqn:E; cbn; rewrite ?wanted_cons, ?seen_cons; cbn;
    rewrite ?app_nil_r; tauto.
Qed.
Lemma schedule_bad v s : bad s -> bad (w_schedule_flush v s).
Proof. destruct (schedule_same v s) as (_ & _ & _ & _ & H5 & _ & H7 & _). unfold bad. rewrite H5, H7. tauto. Qed.
Lemma schedule_queued v i s : queued i s -> queued i (w_schedule_flush v s).
Proof.
  destruct (schedule_same v s) as (H1 & _ & _ & _ & _ & H6 & _ & H8 & H9). unfold queued.
  rewrite H1, H6, H8, H9. tauto.
Qed.

(** Once something went wrong, it stays so. *)
Definition keeps_bad (again : option (nat -> wserver -> wserver * nat)) : Prop :=
  match again with None => True | Some f => forall i s, bad s -> bad (fst (f i s)) end.
Lemma scan_bad again : keeps_bad again -> forall rest i s, bad s -> bad (fst (w_scan clock again rest i s)).
Proof.
  intros Ha. induction rest as [|e r IHr]; intros i s Hb; [exact Hb|]. cbn [w_scan].
  destruct (is_mouse_wheel (ek e) && kstate_eqb (es e) Down); [apply IHr; exact Hb|].
  destruct (is_action_key (ek e)); [apply IHr; destruct (kstate_eqb (es e) Down); exact Hb|].
  destruct (is_virtual_key (ek e)) eqn:Ev; [destruct (kstate_eqb (es e) Down); [destruct again as [f|]|]|].
  - apply Ha, virtual_bad; assumption.
  - apply IHr; exact Hb.
  - apply IHr; exact Hb.
  - destruct (ek e =? k_timeout); [apply schedule_bad; exact Hb|].
    destruct (negb (i =? 0)%nat && is_control_up e); [apply schedule_bad; exact Hb|].
    apply IHr. destruct (send_same e s) as (_ & _ & _ & _ & H5 & H6). unfold bad. rewrite H5, H6. exact Hb.
Qed.
Lemma loop_bad : forall left i s, bad s -> bad (fst (w_flush_loop clock left i s)).
Proof.
  induction left as [|left IH]; intros i s Hb; cbn [w_flush_loop]; apply scan_bad; try exact Hb; [exact Logic.I|].
  exact IH.
Qed.

Definition sends_on (again : option (nat -> wserver -> wserver * nat)) : Prop :=
  match again with
  | None => True
  | Some f => forall i s, ws_flush s = false -> queued i s -> sent_up_to s (fst (f i s)) (snd (f i s))
  end.
Lemma scan_sent again : keeps_bad again -> sends_on again -> forall rest i s,
  rest = skipn i (ws_buf s) -> ws_flush s = false -> queued i s ->
  sent_up_to s (fst (w_scan clock again rest i s)) (snd (w_scan clock again rest i s)).
Proof.
  intros Hk Ha. induction rest as [|e r IHr]; intros i s Er Hf Hq.
  { right. cbn [w_scan fst snd]. split; [exact Hq|]. split; [|tauto]. right. destruct Hq as (Hi & _).
    assert (length (skipn i (ws_buf s)) = 0%nat) as Hl by (rewrite <- Er; reflexivity).
    rewrite skipn_length in Hl. lia. }
  destruct (skipn_next _ _ _ _ Er) as [Er1 Er2]. cbn [w_scan].
  destruct (is_mouse_wheel (ek e) && kstate_eqb (es e) Down) eqn:Ew.
  { apply IHr; [exact Er1|exact Hf|exact (queued_skip _ _ _ _ Er (shown_wheel _ Ew) Hq)]. }
  destruct (is_action_key (ek e)) eqn:Ea.
  { set (s1 := if kstate_eqb (es e) Down then w_log (WAction (ek e - first_action)) s else s).
    assert (ext s s1 [] []) as H1.
    { subst s1. destruct (kstate_eqb (es e) Down); unfold ext; cbn; rewrite ?wanted_cons, ?seen_cons; cbn;
        rewrite !app_nil_r; tauto. }
    assert (ws_buf s1 = ws_buf s) as Hb1 by (subst s1; destruct (kstate_eqb (es e) Down); reflexivity).
    assert (ws_flush s1 = ws_flush s) as Hf1 by (subst s1; destruct (kstate_eqb (es e) Down); reflexivity).
    apply (queued_skip _ _ _ _ Er (shown_action _ Ea)) in Hq.
    destruct (ext_queued s s1 [] (S i) H1 Hq) as [Hbad|Hq1].
    - left. apply scan_bad; assumption.
    - apply (sent_via s s1); [apply H1|apply H1|]. apply IHr; [rewrite Hb1; exact Er1|congruence|exact Hq1]. }
  destruct (is_virtual_key (ek e)) eqn:Ev; [destruct (kstate_eqb (es e) Down); [destruct again as [f|]|]|].
  - apply (queued_skip _ _ _ _ Er (shown_virtual _ Ev)) in Hq. unfold w_toggle_virtual_key.
    destruct (virtual_ext w_reset_while_sending (ek e) Not s Ev) as [H|(l & H)].
    { left. apply Hk. left. exact H. }
    destruct (ext_queued _ _ _ (S i) H Hq) as [Hbad|Hq1]; [left; apply Hk; exact Hbad|].
    apply (sent_via s _ _ _ (proj1 (proj2 (proj2 (proj2 (proj2 H)))))
             (proj1 (proj2 (proj2 (proj2 (proj2 (proj2 (proj2 H)))))))).
    apply Ha; [|exact Hq1]. rewrite (proj1 (proj2 (proj2 (proj2 (proj2 (proj2 H)))))). exact Hf.
  - apply IHr; [exact Er1|exact Hf|exact (queued_skip _ _ _ _ Er (shown_virtual _ Ev) Hq)].
  - apply IHr; [exact Er1|exact Hf|exact (queued_skip _ _ _ _ Er (shown_virtual _ Ev) Hq)].
  - destruct (ek e =? k_timeout) eqn:Et.
    { apply N.eqb_eq in Et. apply (queued_skip _ _ _ _ Er (shown_timeout _ Et)) in Hq. right. cbn [fst snd].
      split; [apply schedule_queued; exact Hq|]. destruct (schedule_same (ev e) s) as (_ & H2 & H3 & H4 & _). tauto. }
    destruct (negb (i =? 0)%nat && is_control_up e).
    { right. cbn [fst snd]. split; [apply schedule_queued; exact Hq|].
      destruct (schedule_same 10 s) as (_ & H2 & H3 & H4 & _). tauto. }
    assert (shown e = [(ek e, kstate_eqb (es e) Up)]) as Hsh by (unfold shown; rewrite Ew, Ea, Ev, Et; reflexivity).
    destruct (send_same e s) as (H1 & H2 & H3 & H4 & _).
    apply (sent_via s (w_send e s)); [exact H2|exact H4|].
    apply IHr; [rewrite H1; exact Er1|congruence|exact (queued_send _ _ _ _ Er Hsh Hq)].
Qed.
Lemma loop_sent : forall left i s, ws_flush s = false -> queued i s ->
  sent_up_to s (fst (w_flush_loop clock left i s)) (snd (w_flush_loop clock left i s)).
Proof.
  induction left as [|left IH]; intros i s Hf Hq; cbn [w_flush_loop].
  - apply scan_sent; [exact Logic.I|exact Logic.I|reflexivity|exact Hf|exact Hq].
  - apply scan_sent; [exact (loop_bad left)|exact IH|reflexivity|exact Hf|exact Hq].
Qed.

(** * Between calls *)

Definition waiting (s : wserver) : Prop := ws_sending s = false /\ queued 0 s.
(** What is queued will be sent: the timer is set. *)
Definition settled (s : wserver) : Prop := waiting s /\ (ws_flush s = false -> ws_buf s = []).

Lemma flush_bad s : bad s -> bad (w_flush_send_buffer clock s).
Proof.
  intros Hb. unfold w_flush_send_buffer. destruct (ws_sending s); [exact Hb|].
  pose proof (loop_bad 9 0 (w_flush false (w_sending true s)) Hb) as H.
  destruct (w_flush_loop clock 9 0 (w_flush false (w_sending true s))) as [s' i]. exact H.
Qed.
Lemma flush_settled s : waiting s -> bad (w_flush_send_buffer clock s) \/
  settled (w_flush_send_buffer clock s) /\ ws_hooked (w_flush_send_buffer clock s) = ws_hooked s.
Proof.
  intros [Hs Hq]. unfold w_flush_send_buffer. rewrite Hs.
  pose proof (loop_sent 9 0 (w_flush false (w_sending true s)) eq_refl Hq) as H.
  destruct (w_flush_loop clock 9 0 (w_flush false (w_sending true s))) as [s' i]. cbn [fst snd] in H.
  destruct H as [H|(H & Hf & _ & Hh)]; [left; exact H|]. right. split; [|exact Hh].
  destruct H as (Hi & Hp & c & Hc). split.
  - split; [reflexivity|]. split; [cbn; lia|]. split; [exact Hp|]. exists c. exact Hc.
  - cbn. intros Hf'. destruct Hf as [Hf|Hf]; [congruence|]. rewrite Hf. apply skipn_all.
Qed.
Lemma unless_bad s : bad s -> bad (w_flush_unless_scheduled clock s).
Proof. unfold w_flush_unless_scheduled. destruct (ws_flush s); [tauto|apply flush_bad]. Qed.
Lemma unless_settled s : waiting s -> bad (w_flush_unless_scheduled clock s) \/
  settled (w_flush_unless_scheduled clock s) /\ ws_hooked (w_flush_unless_scheduled clock s) = ws_hooked s.
Proof.
  intros H. unfold w_flush_unless_scheduled. destruct (ws_flush s) eqn:E; [|apply flush_settled; exact H].
  right. split; [|reflexivity]. split; [exact H|]. rewrite E. discriminate.
Qed.

Lemma put_ext l s : ext s (w_put l s) l (flat_map shown l).
Proof. unfold ext. cbn. rewrite wanted_cons, seen_cons. cbn. rewrite app_nil_r, andb_true_iff. tauto. Qed.
Lemma ext_waiting s s' l : ext s s' l (flat_map shown l) -> waiting s -> bad s' \/ waiting s'.
Proof.
  intros H [Hs Hq]. destruct (ext_queued _ _ _ 0 H Hq) as [Hb|Hq']; [left; exact Hb|]. right. split; [|exact Hq'].
  destruct H as (_ & _ & _ & _ & -> & _). exact Hs.
Qed.

(** * The wheel *)

Lemma delta_one e k v : exists v', copy_delta e [Ev k Down v] = [Ev k Down v'].
Proof.
  unfold copy_delta. destruct (is_mouse_wheel (ek e)); [|eexists; reflexivity]. cbn [map ek ev es].
  destruct (is_mouse_wheel k && (v =? 0)); eexists; reflexivity.
Qed.
Lemma wheel_not_key k x : is_mouse_wheel k = true -> is_mouse_wheel x = false -> (k =? x) = false.
Proof. intros H1 H2. apply N.eqb_neq. intros ->. congruence. Qed.

(** The press which precedes the release of a wheel *)
Lemma wheel_press reset rec k v s : is_mouse_wheel k = true -> ws_start s = None ->
  (exists m v', m_update (Ev k Down v) 1 (ws_stage s) = (m, [Ev k Down v'])) ->
  let s' := fst (w_translate_step clock reset rec (Ev k Down v) 1 s) in
  ws_exited s' = true \/ exists l, ext s s' l [] /\ flat_map shown l = [] /\ (ws_flush s = false -> l = []).
Proof.
  intros Hw Hst (m & v' & Hm). cbv zeta. unfold w_translate_step.
  destruct (event_eqb _ _ && _).
  { right. exists []. split; [apply ext_refl|]. split; reflexivity. }
  destruct (ws_next s && _ && _ && _).
  { right. exists []. split; [|split; reflexivity]. unfold ext. cbn. rewrite wanted_cons, seen_cons. cbn.
    rewrite !app_nil_r. tauto. }
  unfold w_cancel_pending. rewrite Hst. cbn [ek es ev]. rewrite (wheel_not_key k NumLock_w Hw eq_refl), andb_false_r.
  cbn [andb kstate_eqb ek es]. rewrite andb_false_r. unfold w_translate_core. cbn [ek].
  rewrite (wheel_not_key k k_timeout Hw eq_refl). cbn [ws_stage w_last]. rewrite Hm. cbv zeta.
  destruct (m_should_exit _); [left; reflexivity|]. cbn [back pop_back rev ek].
  destruct (delta_one (Ev k Down v) k v') as (v2 & Hd).
  unfold back. cbn [rev app ek nth_error]. rewrite (wheel_not_key k k_timeout Hw eq_refl). cbn [ek].
  rewrite Hd. cbn [ws_flush w_log w_stage w_last is_translated ek es kstate_eqb]. rewrite N.eqb_refl.
  rewrite (wheel_not_key k AltRight_w Hw eq_refl). cbn [negb orb xorb].
  destruct (ws_flush s) eqn:Ef; cbn [orb fst].
  - right. exists [Ev k Down v2]. assert (shown (Ev k Down v2) = []) as Hs by (apply shown_wheel; cbn; rewrite Hw; reflexivity).
    split; [|split; [cbn; rewrite Hs; reflexivity|discriminate]]. unfold ext. cbn. rewrite wanted_cons, seen_cons. cbn.
    rewrite Hs, ?app_nil_r, !andb_true_iff. cbn in Hs. tauto.
  - right. exists []. assert (shown (Ev k Down v2) = []) as Hs by (apply shown_wheel; cbn; rewrite Hw; reflexivity).
    split; [|split; reflexivity]. unfold ext. cbn. rewrite wanted_cons, seen_cons. cbn.
    rewrite Hs, ?app_nil_r, !andb_true_iff. tauto.
Qed.

Lemma wheel_given reset e s : is_mouse_wheel (ek e) = true -> es e = Up -> plain_wheel e s ->
  let '(s', b) := w_translate_with clock reset e 1 s in given e s s' b.
Proof.
  intros Hw Hu (Hst & Hm). unfold w_translate_with.
  set (rec1 := w_translate_step clock reset (fun _ _ s => (w_oof s, true))).
  unfold w_translate_step at 1.
  destruct (event_eqb _ _ && _).
  { right. exists []. split; [apply ext_refl|discriminate]. }
  rewrite Hu. cbn [kstate_eqb]. rewrite andb_false_r. unfold w_cancel_pending. rewrite Hst.
  rewrite (wheel_not_key _ NumLock_w Hw eq_refl), andb_false_r. cbn [andb]. rewrite Hw, Hu. cbn [kstate_eqb andb].
  pose proof (wheel_press reset rec1 (ek e) (ev e) s Hw Hst Hm) as P. cbv zeta in P.
  set (s1 := fst (w_translate_step clock reset rec1 (Ev (ek e) Down (ev e)) 1 s)) in *. clearbody s1.
  pose proof (core_given reset false false e 1 s1) as Hc. rewrite Hu in Hc. specialize (Hc (fun _ => eq_refl)).
  destruct (w_translate_core clock reset false false e 1 s1) as [s' b]. destruct Hc as [Hg _].
  destruct Hg as [Hx|(l & Hx & Hl)]; [left; exact Hx|].
  destruct P as [Hex|(l1 & Hx1 & Hs1 & Hf1)].
  - left. destruct Hx as (_ & _ & _ & _ & _ & _ & _ & -> & _). exact Hex.
  - right. exists (l1 ++ l). rewrite flat_map_app, Hs1. split; [exact (ext_trans _ _ _ _ _ _ _ Hx1 Hx)|].
    intros Hb. destruct (Hl Hb) as [Hf ->]. destruct Hx1 as (_ & _ & _ & _ & _ & H6 & _). rewrite H6 in Hf.
    rewrite (Hf1 Hf). tauto.
Qed.

(** * Passing on *)

Lemma given_waiting e s s' : given e s s' true -> waiting s -> bad s' \/ waiting s'.
Proof.
  intros [H|(l & H & _)] Hw; [left; left; exact H|]. rewrite app_nil_r in H. exact (ext_waiting _ _ _ H Hw).
Qed.
(** Nothing waits when an event is passed on. *)
Definition free_for (e : event) (s : wserver) : Prop :=
  ws_sending s = false /\ ws_buf s = [] /\ ws_flush s = false /\
  exists c, wanted (ws_trace s) = c ++ shown e /\
    seen (ws_trace s) = settle none_held c /\ holds (held_after none_held c) (ws_buttons s).
Lemma given_free e s s' : given e s s' false -> settled s -> bad s' \/ free_for e s' .
Proof.
  intros [H|(l & H & Hb)] [[Hs Hq] Hf]; [left; left; exact H|]. destruct (Hb eq_refl) as [Hf0 ->].
  destruct H as (H1 & H2 & H3 & H4 & H5 & H6 & H7 & _). specialize (Hf Hf0). right. unfold free_for.
  rewrite H1, H2, H3, H4, H5, H6, Hf. cbn [flat_map app].
  destruct Hq as (_ & _ & c & Hc & Hq). rewrite Hf in Hc. cbn in Hc. rewrite app_nil_r in Hc.
  split; [exact Hs|]. split; [reflexivity|]. split; [exact Hf0|]. exists c. rewrite Hc. tauto.
Qed.
Lemma free_settled e s : free_for e s -> proper e = true -> shown e = [(ek e, kstate_eqb (es e) Up)] ->
  let '(p, l) := prevent_button_repeat e (ws_buttons s) in
  settled (if p then w_schedule_flush 0 (w_buttons l s) else w_log (WPassed e) (w_buttons l s)).
Proof.
  intros (Hs & Hb & Hf & c & Hc & Hw & Hh) Hp He. pose proof (prevent_settle e _ _ Hh Hp) as P.
  destruct (prevent_button_repeat e (ws_buttons s)) as [p l]. destruct P as [P1 P2]. rewrite He in Hc.
  assert (forall s', ws_buf s' = [] -> ws_sending s' = false -> wanted (ws_trace s') = wanted (ws_trace s) ->
    seen (ws_trace s') = seen (ws_trace s) ++ (if p then [] else [(ek e, kstate_eqb (es e) Up)]) ->
    ws_buttons s' = l -> settled s') as A.
  { intros s' B1 B2 B3 B4 B5. split; [|intros _; exact B1]. split; [exact B2|]. unfold queued.
    rewrite B1, B3, B4, B5. cbn. split; [lia|]. split; [reflexivity|].
    exists (c ++ [(ek e, kstate_eqb (es e) Up)]). rewrite settle_app, held_after_app, P1, Hw, Hc, app_nil_r. tauto. }
  destruct p.
  - destruct (schedule_same 0 (w_buttons l s)) as (Q1 & Q2 & _ & _ & _ & Q6 & _ & Q8 & Q9).
    apply A; rewrite ?Q1, ?Q2, ?Q6, ?Q8, ?Q9, ?app_nil_r; cbn; try assumption; reflexivity.
  - apply A; cbn; rewrite ?wanted_cons, ?seen_cons; cbn; rewrite ?app_nil_r; try assumption; reflexivity.
Qed.

Lemma log_bad x s : bad s -> bad (w_log x s).
Proof. unfold bad. cbn. intros [H|H]; [tauto|]. right.
  unfold proper_buttons in H. rewrite H. apply andb_false_r.
Qed.

(** * Contexts, configurations and messages *)

Lemma put_bad l s : bad s -> bad (w_put l s).
Proof. exact (ext_bad _ _ _ _ (put_ext l s)). Qed.
Lemma contexts_bad l s : bad s -> bad (w_set_active_contexts clock l s).
Proof.
  intros Hb. unfold w_set_active_contexts. destruct (m_set_active_client_contexts l (ws_stage s)) as [m out].
  apply unless_bad, put_bad. exact Hb.
Qed.
Lemma contexts_settled l s : waiting s -> bad (w_set_active_contexts clock l s) \/
  settled (w_set_active_contexts clock l s).
Proof.
  intros Hw. unfold w_set_active_contexts. destruct (m_set_active_client_contexts l (ws_stage s)) as [m out].
  destruct (ext_waiting _ _ out (put_ext out (w_stage (m_reuse_buffer m) s))) as [H|H].
  - exact Hw.
  - left. apply unless_bad. exact H.
  - destruct (unless_settled _ H) as [H'|[H' _]]; [left|right]; exact H'.
Qed.
Lemma filters_bad s : bad s -> bad (w_evaluate_filters clock s).
Proof.
  intros Hb. unfold w_evaluate_filters. destruct (negb _ || _); [exact Hb|]. apply contexts_bad. exact Hb.
Qed.
Lemma filters_settled s : settled s -> bad (w_evaluate_filters clock s) \/ settled (w_evaluate_filters clock s).
Proof.
  intros Hs. unfold w_evaluate_filters. destruct (negb _ || _); [right; exact Hs|]. apply contexts_settled.
  exact (proj1 Hs).
Qed.
Lemma reset_bad m s : bad s -> bad (w_reset_configuration clock m s).
Proof.
  intros Hb. unfold w_reset_configuration. apply filters_bad.
  assert (bad (w_flush_send_buffer clock (w_release_all_keys s))) as H by (apply flush_bad, put_bad; exact Hb).
  exact H.
Qed.
Lemma reset_settled m s : waiting s -> nothing_waits clock s ->
  bad (w_reset_configuration clock m s) \/ settled (w_reset_configuration clock m s).
Proof.
  intros Hw Hn. unfold nothing_waits in Hn. unfold w_reset_configuration.
  assert (bad (w_flush_send_buffer clock (w_release_all_keys s)) \/ settled (w_flush_send_buffer clock (w_release_all_keys s))) as H.
  { destruct (ext_waiting s (w_release_all_keys s) _ (put_ext _ s) Hw) as [H|H]; [left; apply flush_bad; exact H|].
    destruct (flush_settled _ H) as [H'|[H' _]]; [left|right]; exact H'. }
  cbv zeta. set (s1 := w_flush_send_buffer clock (w_release_all_keys s)) in *. clearbody s1.
  destruct H as [H|[[H1 H2] H3]]; [left; apply filters_bad; exact H|]. apply filters_settled.
  split; [split; [exact H1|exact H2]|]. intros _. exact Hn.
Qed.

Lemma input_proper e : (match es e with Up | Down => true | _ => false end) = true -> proper e = true.
Proof. intros H. unfold proper. rewrite H. apply orb_true_r. Qed.
Lemma inject_bad : forall l s, Forall (fun e => is_mouse_wheel (ek e) = false) l -> bad s -> bad (w_inject_input clock l s).
Proof.
  induction l as [|e l IH]; intros s Hl Hb; [exact Hb|]. inversion Hl as [|? ? He Hr]; subst. cbn [w_inject_input].
  apply IH; [exact Hr|]. destruct (_ && _); [|exact Hb].
  pose proof (translate_given (w_reset_configuration clock None) e no_device s He) as G. unfold w_translate_input.
  destruct (w_translate_with clock (w_reset_configuration clock None) e no_device s) as [s' b].
  pose proof (given_bad _ _ _ _ (proj1 G) Hb) as H. destruct b; exact H.
Qed.
Lemma inject_waiting : forall l s, Forall (fun e => is_mouse_wheel (ek e) = false) l -> waiting s ->
  bad (w_inject_input clock l s) \/ waiting (w_inject_input clock l s).
Proof.
  induction l as [|e l IH]; intros s Hl Hw; [right; exact Hw|]. inversion Hl as [|? ? He Hr]; subst. cbn [w_inject_input].
  destruct (_ && _) eqn:Ee; [|apply IH; assumption]. apply andb_prop in Ee. destruct Ee as [Ee _].
  apply input_proper in Ee.
  pose proof (translate_given (w_reset_configuration clock None) e no_device s He) as G. unfold w_translate_input.
  destruct (w_translate_with clock (w_reset_configuration clock None) e no_device s) as [s' b].
  destruct G as [G _]. destruct b.
  - destruct (given_waiting _ _ _ G Hw) as [H|H]; [left; apply inject_bad; assumption|apply IH; assumption].
  - destruct G as [G|(l1 & G & Gb)]; [left; apply inject_bad; [exact Hr|left; exact G]|].
    destruct (Gb eq_refl) as [_ ->]. cbn [flat_map app] in G.
    assert (ext s (w_push [e] s') [e] (flat_map shown [e])) as X.
    { revert G. unfold ext. cbn. rewrite !app_nil_r, Ee. intros (-> & -> & H3 & H4 & H5 & H6 & H7 & H8 & H9). cbn. tauto. }
    destruct (ext_waiting _ _ _ X Hw) as [H|H]; [left; apply inject_bad; assumption|apply IH; assumption].
Qed.
Lemma schedule_settled v s : waiting s -> settled (w_schedule_flush v s).
Proof.
  intros [Hs Hq]. destruct (schedule_same v s) as (_ & H2 & H3 & _). split; [split|].
  - congruence.
  - apply schedule_queued. exact Hq.
  - rewrite H3. discriminate.
Qed.

Lemma message_bad m s : fine_message clock m s -> bad s -> bad (w_on_message clock m s).
Proof.
  intros Hm Hb. destruct m as [[c|]|l|k st|f| |l|l]; cbn [w_on_message fine_message] in *.
  - apply reset_bad. exact Hb.
  - exact Hb.
  - apply contexts_bad. exact Hb.
  - apply unless_bad, virtual_bad; assumption.
  - exact Hb.
  - exact Hb.
  - apply schedule_bad, inject_bad; assumption.
  - apply schedule_bad, put_bad. exact Hb.
Qed.
Lemma message_settled m s : fine_message clock m s -> settled s ->
  bad (w_on_message clock m s) \/ settled (w_on_message clock m s).
Proof.
  intros Hm Hs. destruct m as [[c|]|l|k st|f| |l|l]; cbn [w_on_message fine_message] in *.
  - apply reset_settled; [exact (proj1 Hs)|exact Hm].
  - right. exact Hs.
  - apply contexts_settled. exact (proj1 Hs).
  - destruct (virtual_ext (w_reset_configuration clock None) k st s Hm) as [H|(l & H)].
    + left. apply unless_bad. left. exact H.
    + destruct (ext_waiting _ _ _ H (proj1 Hs)) as [H'|H']; [left; apply unless_bad; exact H'|].
      destruct (unless_settled _ H') as [X|[X _]]; [left|right]; exact X.
  - right. exact Hs.
  - right. exact Hs.
  - destruct (inject_waiting l s Hm (proj1 Hs)) as [H|H]; [left; apply schedule_bad; exact H|].
    right. apply schedule_settled. exact H.
  - destruct (ext_waiting _ _ _ (put_ext l s) (proj1 Hs)) as [H|H]; [left; apply schedule_bad; exact H|].
    right. apply schedule_settled. exact H.
Qed.
Lemma messages_bad : forall l s, fine_messages clock l s -> bad s -> bad (fold_left (fun s m => w_on_message clock m s) l s).
Proof.
  induction l as [|m l IH]; intros s Hl Hb; [exact Hb|]. destruct Hl as [Hm Hl]. cbn [fold_left].
  apply IH; [exact Hl|]. apply message_bad; assumption.
Qed.
Lemma messages_settled : forall l s, fine_messages clock l s -> settled s ->
  bad (fold_left (fun s m => w_on_message clock m s) l s) \/ settled (fold_left (fun s m => w_on_message clock m s) l s).
Proof.
  induction l as [|m l IH]; intros s Hl Hs; [right; exact Hs|]. destruct Hl as [Hm Hl]. cbn [fold_left].
  destruct (message_settled m s Hm Hs) as [H|H]; [left; apply messages_bad; assumption|apply IH; assumption].
Qed.

(** * Calls of the window procedure and of the hooks *)

Lemma device_shown e : ek e <= WheelRight \/ is_keyboard_key (ek e) = true ->
  is_mouse_wheel (ek e) && kstate_eqb (es e) Down = false -> shown e = [(ek e, kstate_eqb (es e) Up)].
Proof.
  intros H Hw. unfold shown. rewrite Hw, orb_false_r.
  assert (ek e <= last_keyboard_key) as Hl.
  { destruct H as [H|H]; [unfold last_keyboard_key; unfold WheelRight in H; lia|]. unfold is_keyboard_key in H.
    rewrite !andb_true_iff, N.leb_le in H. tauto. }
  assert (is_virtual_key (ek e) = false /\ is_action_key (ek e) = false /\ (ek e =? k_timeout) = false) as (-> & -> & ->); [|reflexivity].
  unfold is_virtual_key, is_action_key, in_range, first_virtual, last_virtual, first_action, last_action, k_timeout, last_keyboard_key in *.
  rewrite !andb_false_iff, !N.leb_gt, N.eqb_neq. lia.
Qed.
Lemma keyboard_only k : is_keyboard_key k = true -> is_mouse_wheel k = false /\ is_mouse_button k = false.
Proof. unfold is_keyboard_key. rewrite !andb_true_iff, !negb_true_iff. tauto. Qed.
Lemma wheel_small k : is_mouse_wheel k = true -> k <= WheelRight /\ is_mouse_button k = false.
Proof.
  unfold is_mouse_wheel, is_mouse_button, in_range. rewrite andb_true_iff, andb_false_iff, !N.leb_le, !N.leb_gt.
  unfold WheelUp, WheelRight, ButtonLeft, ButtonForward. lia.
Qed.
Lemma button_small k : is_mouse_button k = true -> k <= WheelRight /\ is_mouse_wheel k = false.
Proof.
  unfold is_mouse_wheel, is_mouse_button, in_range. rewrite andb_true_iff, andb_false_iff, !N.leb_le, !N.leb_gt.
  unfold WheelUp, WheelRight, ButtonLeft, ButtonForward. lia.
Qed.

Lemma keyboard_bad e s : is_keyboard_key (ek e) = true -> bad s -> bad (keyboard_hook clock e s).
Proof.
  intros Hk Hb. destruct (keyboard_only _ Hk) as [Hw _]. unfold keyboard_hook, w_translate_input.
  pose proof (translate_given (w_reset_configuration clock None) e 0 s Hw) as G.
  destruct (w_translate_with clock (w_reset_configuration clock None) e 0 s) as [s' b].
  pose proof (given_bad _ _ _ _ (proj1 G) Hb) as H. destruct b; [apply unless_bad|apply log_bad]; exact H.
Qed.
Lemma buttons_same s : w_buttons (ws_buttons s) s = s.
Proof. destruct s. reflexivity. Qed.
Lemma keyboard_settled e s : is_keyboard_key (ek e) = true -> settled s ->
  bad (keyboard_hook clock e s) \/ settled (keyboard_hook clock e s).
Proof.
  intros Hk Hs. destruct (keyboard_only _ Hk) as [Hw Hm]. unfold keyboard_hook, w_translate_input.
  pose proof (translate_given (w_reset_configuration clock None) e 0 s Hw) as G.
  destruct (w_translate_with clock (w_reset_configuration clock None) e 0 s) as [s' b]. destruct G as [G _].
  destruct b.
  - destruct (given_waiting _ _ _ G (proj1 Hs)) as [H|H]; [left; apply unless_bad; exact H|].
    destruct (unless_settled _ H) as [X|[X _]]; [left|right]; exact X.
  - destruct (given_free _ _ _ G Hs) as [H|H]; [left; apply log_bad; exact H|]. right.
    assert (proper e = true) as Hp by (unfold proper; rewrite Hm; reflexivity).
    pose proof (free_settled e s' H Hp (device_shown e (or_intror Hk) ltac:(rewrite Hw; reflexivity))) as X.
    unfold prevent_button_repeat in X. rewrite Hm in X. cbn [negb] in X. rewrite buttons_same in X. exact X.
Qed.

Definition fine_mouse (e : event) (s : wserver) : Prop :=
  is_mouse_button (ek e) = true /\ (es e = Up \/ es e = Down)
  \/ is_mouse_wheel (ek e) = true /\ es e = Up /\ plain_wheel e s.
Lemma mouse_given e s : fine_mouse e s ->
  (let '(s', b) := w_translate_input clock e 1 s in given e s s' b) /\
  proper e = true /\ shown e = [(ek e, kstate_eqb (es e) Up)].
Proof.
  intros [[Hb He]|(Hw & He & Hp)].
  - destruct (button_small _ Hb) as [Hs Hw]. split; [|split].
    + unfold w_translate_input. pose proof (translate_given (w_reset_configuration clock None) e 1 s Hw) as G.
      destruct (w_translate_with clock (w_reset_configuration clock None) e 1 s). exact (proj1 G).
    + unfold proper. destruct He as [-> | ->]; apply orb_true_r.
    + apply device_shown; [left; exact Hs|rewrite Hw; reflexivity].
  - destruct (wheel_small _ Hw) as [Hs Hb]. split; [|split].
    + apply wheel_given; assumption.
    + unfold proper. rewrite Hb. reflexivity.
    + apply device_shown; [left; exact Hs|rewrite He; apply andb_false_r].
Qed.
Lemma mouse_bad e s : fine_mouse e s -> bad s -> bad (mouse_hook clock e s).
Proof.
  intros He Hb. destruct (mouse_given e s He) as [G _]. unfold mouse_hook.
  destruct (w_translate_input clock e 1 s) as [s' b]. pose proof (given_bad _ _ _ _ G Hb) as H.
  destruct b; [apply schedule_bad; exact H|].
  destruct (prevent_button_repeat e (ws_buttons s')) as [p l]. destruct p; [apply schedule_bad|apply log_bad]; exact H.
Qed.
Lemma mouse_settled e s : fine_mouse e s -> settled s ->
  bad (mouse_hook clock e s) \/ settled (mouse_hook clock e s).
Proof.
  intros He Hs. destruct (mouse_given e s He) as (G & Hp & Hsh). unfold mouse_hook.
  destruct (w_translate_input clock e 1 s) as [s' b]. destruct b.
  - destruct (given_waiting _ _ _ G (proj1 Hs)) as [H|H]; [left; apply schedule_bad; exact H|].
    right. apply schedule_settled. exact H.
  - destruct (given_free _ _ _ G Hs) as [H|H].
    + left. destruct (prevent_button_repeat e (ws_buttons s')) as [p l]. destruct p; [apply schedule_bad|apply log_bad]; exact H.
    + right. pose proof (free_settled e s' H Hp Hsh) as X.
      destruct (prevent_button_repeat e (ws_buttons s')) as [p l]. destruct p; exact X.
Qed.

Lemma expired_given s : let e := expired_event (ws_timeout s) in
  ws_exited (fst (w_translate_input clock e any_device (w_cancel_timeout s))) = true \/
  exists l, ext s (fst (w_translate_input clock e any_device (w_cancel_timeout s))) l (flat_map shown l).
Proof.
  cbv zeta. set (e := expired_event (ws_timeout s)).
  assert (ek e = k_timeout) as He by reflexivity.
  assert (is_mouse_wheel (ek e) = false) as Hw by (rewrite He; reflexivity).
  pose proof (translate_given (w_reset_configuration clock None) e any_device (w_cancel_timeout s) Hw) as G.
  unfold w_translate_input.
  destruct (w_translate_with clock (w_reset_configuration clock None) e any_device (w_cancel_timeout s)) as [s' b].
  destruct G as [G _]. apply (given_log _ s) in G.
  - destruct G as [G|(l & G & _)]; [left; exact G|]. right. exists l. cbn [fst].
    destruct b; [|rewrite (shown_timeout e He) in G]; rewrite app_nil_r in G; exact G.
  - unfold ext. cbn. rewrite wanted_cons, seen_cons. cbn. rewrite !app_nil_r. tauto.
Qed.

Lemma step_bad x s : fine_step clock x s -> bad s -> bad (w_step clock x s).
Proof.
  intros Hx Hb. destruct x as [e|e|l| | | |ds]; cbn [w_step fine_step] in *.
  - destruct Hx as [-> Hk]. apply keyboard_bad; assumption.
  - destruct Hx as [-> Hk]. apply mouse_bad; assumption.
  - exact (messages_bad l s Hx Hb).
  - exact (reset_bad None s Hb).
  - apply flush_bad. exact Hb.
  - apply unless_bad. destruct (expired_given s) as [H|(l & H)]; [left; exact H|exact (ext_bad _ _ _ _ H Hb)].
  - apply filters_bad. exact Hb.
Qed.
Lemma step_settled x s : fine_step clock x s -> settled s -> bad (w_step clock x s) \/ settled (w_step clock x s).
Proof.
  intros Hx Hs. destruct x as [e|e|l| | | |ds]; cbn [w_step fine_step] in *.
  - destruct Hx as [-> Hk]. apply keyboard_settled; assumption.
  - destruct Hx as [-> Hk]. apply mouse_settled; assumption.
  - exact (messages_settled l s Hx Hs).
  - exact (reset_settled None s (proj1 Hs) Hx).
  - destruct (flush_settled s (proj1 Hs)) as [X|[X _]]; [left|right]; exact X.
  - destruct (expired_given s) as [H|(l & H)].
    + left. apply unless_bad. left. exact H.
    + destruct (ext_waiting _ _ _ H (proj1 Hs)) as [H'|H']; [left; apply unless_bad; exact H'|].
      destruct (unless_settled _ H') as [X|[X _]]; [left|right]; exact X.
  - apply filters_settled. exact Hs.
Qed.

Lemma run_settled : forall l s, fine_run clock l s -> bad s \/ settled s ->
  bad (w_run clock l s) \/ settled (w_run clock l s).
Proof.
  induction l as [|x l IH]; intros s Hl Hs; [exact Hs|]. destruct Hl as [Hx Hl]. cbn [w_run].
  destruct (ws_exited s) eqn:Ex; [exact Hs|]. apply IH; [exact Hl|].
  destruct Hs as [Hb|Hs]; [left; apply step_bad; assumption|apply step_settled; assumption].
Qed.
Lemma init_settled : settled init_wserver.
Proof.
  split; [|reflexivity]. split; [reflexivity|]. split; [cbn; lia|]. split; [reflexivity|]. exists [].
  split; [reflexivity|]. split; [reflexivity|]. split; [constructor|reflexivity].
Qed.

End Run.
