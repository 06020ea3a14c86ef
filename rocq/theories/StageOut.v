(** The held output keys cover what the consumer sees as pressed (C14). *)
From Coq Require Import List Arith NArith ZArith Bool Lia.
From Verif Require Import Base Key Match Stage MatchProofs StageFrame StageTerm StageSpec.
Import ListNotations.
Local Open Scope N_scope.

(** * Lists *)

Lemma find_index_split : forall A (f : A -> bool) l i,
  find_index f l = Some i ->
  exists a o b, l = a ++ o :: b /\ f o = true /\ Forall (fun x => f x = false) a /\
    nth_error l i = Some o /\ remove_at i l = a ++ b /\
    forall g, update_at i g l = a ++ g o :: b.
Proof.
  induction l as [|x l IH]; intros i H; [discriminate|]. cbn in H.
  destruct (f x) eqn:E.
  - injection H as <-. exists [], x, l. cbn. auto 10.
  - destruct (find_index f l) as [j|]; [|discriminate]. injection H as <-.
    destruct (IH j eq_refl) as [a [o [b [H1 [H2 [H3 [H4 [H5 H6]]]]]]]].
    exists (x :: a), o, b. cbn. rewrite H1 at 1. rewrite H5.
    repeat split; auto. intros g. rewrite H6. reflexivity.
Qed.

Lemma find_index_none : forall A (f : A -> bool) l,
  find_index f l = None -> Forall (fun x => f x = false) l.
Proof.
  induction l as [|x l IH]; intros H; [constructor|]. cbn in H.
  destruct (f x) eqn:E; [discriminate|]. destruct (find_index f l); [discriminate|]. auto.
Qed.

Lemma rfind_index_split : forall A (f : A -> bool) l i,
  rfind_index f l = Some i ->
  exists a o b, l = a ++ o :: b /\ f o = true /\ remove_at i l = a ++ b.
Proof.
  induction l as [|x l IH]; intros i H; [discriminate|]. cbn in H.
  destruct (rfind_index f l) as [j|].
  - injection H as <-. destruct (IH j eq_refl) as [a [o [b [H1 [H2 H3]]]]].
    exists (x :: a), o, b. cbn. rewrite <- H1, H3. auto.
  - destruct (f x) eqn:E; [|discriminate]. injection H as <-. exists [], x, l. auto.
Qed.

Lemma back_split : forall A (l : list A) x, back l = Some x -> l = pop_back l ++ [x].
Proof.
  intros A l x H. unfold back, pop_back in *. destruct l as [|y l] using rev_ind; [discriminate|].
  rewrite rev_app_distr in H. cbn in H. injection H as ->. rewrite removelast_last. reflexivity.
Qed.

(** * is_down_after *)

Lemma find_last_app : forall A (f : A -> bool) a b,
  find_last f (a ++ b) = match find_last f b with Some x => Some x | None => find_last f a end.
Proof.
  induction a as [|x a IH]; intros b; cbn; [destruct (find_last f b); auto|].
  rewrite IH. destruct (find_last f b); auto.
Qed.

Lemma down_after_snoc : forall l e k,
  is_down_after (l ++ [e]) k =
  if ek e =? k then kstate_eqb (es e) Down else is_down_after l k.
Proof.
  intros. unfold is_down_after. rewrite find_last_app. cbn. unfold has_key at 1.
  destruct (ek e =? k); reflexivity.
Qed.

Lemma down_after_remove : forall a e b k,
  ek e <> k -> is_down_after (a ++ e :: b) k = is_down_after (a ++ b) k.
Proof.
  intros a e b k H. unfold is_down_after. rewrite !find_last_app. cbn.
  destruct (find_last (has_key k) b); [reflexivity|].
  unfold has_key at 1. apply N.eqb_neq in H. rewrite H. reflexivity.
Qed.

(** * The invariant; [D] was delivered before. *)

Definition heldl (d : list out_down) (k : key) : Prop :=
  exists o, In o d /\ od_key o = k /\ od_temp o = false.

Definition oinv (D : sequence) (s : state) : Prop :=
  NoDup (map od_key (s_down s)) /\
  forall k, k <> k_timeout -> is_down_after (D ++ s_buf s) k = true -> heldl (s_down s) k.

(** A key whose next release does not undo an earlier release. *)
Definition calm (d : list out_down) (k : key) : Prop :=
  forall o, In o d -> od_key o = k -> od_twice o && od_temp o && negb (od_suppressed o) = false.

(** Entries may lose their [od_temp]. *)
Definition reapp (o o' : out_down) : Prop :=
  od_key o' = od_key o /\ od_trigger o' = od_trigger o /\ od_suppressed o' = od_suppressed o /\
  od_twice o' = od_twice o /\ od_ctx o' = od_ctx o /\
  (od_temp o' = od_temp o \/ od_temp o' = false).

Lemma reapp_refl : forall o, reapp o o.
Proof. intros; unfold reapp; auto 10. Qed.

Lemma reapp_list_refl : forall l, Forall2 reapp l l.
Proof. induction l; constructor; auto using reapp_refl. Qed.

Lemma reapp_keys : forall l l', Forall2 reapp l l' -> map od_key l' = map od_key l.
Proof.
  induction 1; [reflexivity|]. cbn. destruct H as [-> _]. congruence.
Qed.

Lemma reapp_held : forall l l' k, Forall2 reapp l l' -> heldl l k -> heldl l' k.
Proof.
  intros l l' k H. induction H as [|o o' l l' Ho HF IH]; intros [x [Hi [Hk Ht]]]; [contradiction|].
  destruct Hi as [->|Hi].
  - exists o'. split; [left; auto|]. destruct Ho as (H1 & _ & _ & _ & _ & H2).
    split; [congruence|]. destruct H2; congruence.
  - destruct IH as [y [H1 H2]]; [exists x; auto|]. exists y. split; [right; auto|auto].
Qed.

Lemma reapp_calm : forall l l' k, Forall2 reapp l l' -> calm l k -> calm l' k.
Proof.
  intros l l' k H. induction H as [|o o' l l' Ho HF IH]; intros Hc x Hi Hk; [contradiction|].
  destruct Hi as [<-|Hi].
  - destruct Ho as (H1 & _ & H3 & H4 & _ & H5).
    assert (Hx := Hc o (or_introl eq_refl)). rewrite H3, H4.
    destruct H5 as [-> | ->]; [apply Hx; congruence|].
    rewrite andb_false_r. reflexivity.
  - apply IH; auto. intros y Hy. apply Hc. right; auto.
Qed.

Lemma reapply_spec : forall D k l buf rea l' buf' rea' ret,
  reapply_loop k l buf rea = (l', buf', rea', ret) ->
  Forall2 reapp l l' /\
  (forall j, is_down_after (D ++ buf') j = true ->
             is_down_after (D ++ buf) j = true \/ heldl l' j) /\
  (ret = true -> heldl l' k).
Proof.
  intros D k. induction l as [|o l IH]; intros buf rea l' buf' rea' ret H.
  - cbn in H. injection H as <- <- <- <-. split; [constructor|]. split; [auto|discriminate].
  - cbn [reapply_loop] in H. destruct (od_temp o && negb (od_suppressed o)) eqn:E1.
    + set (o' := OD (od_key o) (od_trigger o) (od_suppressed o) false (od_twice o) (od_ctx o)) in *.
      assert (Hr : reapp o o') by (unfold reapp; cbn; auto 10).
      destruct (od_key o =? k) eqn:Ek.
      * injection H as <- <- <- <-. apply N.eqb_eq in Ek.
        split; [constructor; auto using reapp_list_refl|].
        split; [|intros _; exists o'; cbn; auto].
        intros j Hj. rewrite app_assoc, down_after_snoc in Hj. cbn in Hj.
        destruct (N.eqb_spec (od_key o) j); [|auto]. right. exists o'. cbn. auto.
      * destruct (reapply_loop k l (buf ++ [ev0 (od_key o) Down]) true) as [[[r' b] re] rt] eqn:Er.
        injection H as <- <- <- <-. destruct (IH _ _ _ _ _ _ Er) as [H1 [H2 H3]].
        split; [constructor; auto|]. split.
        -- intros j Hj. destruct (H2 j Hj) as [Hd|[x [Hx Hx']]];
             [|right; exists x; split; [right; auto|auto]].
           rewrite app_assoc, down_after_snoc in Hd. cbn in Hd.
           destruct (N.eqb_spec (od_key o) j); [|auto]. right. exists o'. cbn. auto.
        -- intros Ht. destruct (H3 Ht) as [x [Hx Hx']]. exists x. split; [right; auto|auto].
    + destruct (_ && _ && _ && _) eqn:E2.
      * injection H as <- <- <- <-.
        apply andb_prop in E2. destruct E2 as [E2 Eb].
        apply andb_prop in E2. destruct E2 as [E2 _].
        apply andb_prop in E2. destruct E2 as [_ Ek]. apply N.eqb_eq in Ek.
        destruct (back buf) as [x|] eqn:Ebk; [|discriminate].
        apply event_eqb_eq in Eb. subst x. apply back_split in Ebk.
        set (o' := OD _ _ _ false _ _).
        split; [constructor; [unfold reapp; cbn; auto 10|apply reapp_list_refl]|].
        split; [|intros _; exists o'; cbn; auto].
        intros j Hj. destruct (N.eqb_spec k j) as [Ej|Ej].
        -- right. exists o'. cbn. subst. auto.
        -- left. rewrite Ebk, app_assoc, down_after_snoc. cbn.
           apply N.eqb_neq in Ej. rewrite Ej. exact Hj.
      * destruct (reapply_loop k l buf rea) as [[[r' b] re] rt] eqn:Er.
        injection H as <- <- <- <-. destruct (IH _ _ _ _ _ _ Er) as [H1 [H2 H3]].
        split; [constructor; auto using reapp_refl|]. split.
        -- intros j Hj. destruct (H2 j Hj) as [Hd|[x [Hx Hx']]]; [auto|].
           right; exists x; split; [right; auto|auto].
        -- intros Ht. destruct (H3 Ht) as [x [Hx Hx']]. exists x. split; [right; auto|auto].
Qed.

(** * update_output *)

Lemma heldl_app : forall a o b k,
  heldl (a ++ o :: b) k <-> heldl (a ++ b) k \/ (od_key o = k /\ od_temp o = false).
Proof.
  intros a o b k. split.
  - intros [x [Hi Hx]]. apply in_app_or in Hi. destruct Hi as [Hi|[<-|Hi]]; [left|auto|left];
      exists x; (split; [apply in_or_app; auto|auto]).
  - intros [[x [Hi Hx]]|[H1 H2]].
    + exists x. split; [|auto]. apply in_app_or in Hi. apply in_or_app. cbn. tauto.
    + exists o. split; [apply in_or_app; right; left; auto|auto].
Qed.

Lemma nodup_keys_replace : forall a o o' b,
  od_key o' = od_key o -> NoDup (map od_key (a ++ o :: b)) -> NoDup (map od_key (a ++ o' :: b)).
Proof. intros a o o' b H. rewrite !map_app. cbn. rewrite H. auto. Qed.

Lemma nodup_keys_remove : forall a o b,
  NoDup (map od_key (a ++ o :: b)) ->
  NoDup (map od_key (a ++ b)) /\ ~ heldl (a ++ b) (od_key o).
Proof.
  intros a o b H. rewrite map_app in *. cbn in H. apply NoDup_remove in H. destruct H as [H1 H2].
  split; [auto|]. intros [x [Hi [Hk _]]]. apply H2. rewrite <- map_app. rewrite <- Hk.
  apply in_map. auto.
Qed.

Lemma update_output_inv : forall D e t ci s,
  oinv D s -> (es e = Up -> calm (s_down s) (ek e)) -> oinv D (update_output e t ci s).
Proof.
  intros D e t ci s [Hnd Hh] Hcalm. unfold update_output.
  destruct (es e) eqn:Ee; try (split; auto; fail).
  - (* Up *)
    destruct (find_index (fun o => od_key o =? ek e) (s_down s)) as [i|] eqn:Ef; [|split; auto].
    destruct (find_index_split _ _ _ _ Ef) as (a & o & b & Hd & Hk & _ & Hn & Hr & Hu).
    rewrite Hn. apply N.eqb_eq in Hk.
    assert (Hrepl : forall o' bf, od_key o' = od_key o ->
      (forall k, k <> k_timeout -> is_down_after (D ++ bf) k = true -> k <> od_key o ->
                 is_down_after (D ++ s_buf s) k = true) ->
      (is_down_after (D ++ bf) (od_key o) = true -> od_key o <> k_timeout -> od_temp o' = false) ->
      oinv D (set_buf bf (set_down (a ++ o' :: b) s))).
    { intros o' bf Hk' Hb Ho. split; cbn.
      - eapply nodup_keys_replace; [exact Hk'|]. rewrite <- Hd. exact Hnd.
      - intros k Hkt Hdn. apply heldl_app. destruct (N.eq_dec k (od_key o)) as [->|Hne].
        + right. auto.
        + specialize (Hh k Hkt (Hb k Hkt Hdn Hne)). rewrite Hd in Hh. apply heldl_app in Hh.
          destruct Hh as [Hh|[? _]]; [auto|congruence]. }
    destruct (od_twice o && is_virtual_key (ek e)) eqn:Etv; [|destruct (od_twice o && negb (od_suppressed o)) eqn:Ets].
    + unfold emit. cbn [s_buf set_down]. rewrite Hu. apply Hrepl; [reflexivity| |].
      * intros k _ H Hne. rewrite app_assoc, down_after_snoc in H.
        destruct (N.eqb_spec (ek e) k); [congruence|auto].
      * rewrite app_assoc, down_after_snoc, Hk, N.eqb_refl, Ee. discriminate.
    + (* undo the press: the key is not temporarily released *)
      specialize (Hcalm eq_refl o). rewrite Hd in Hcalm.
      assert (Ht : od_temp o = false).
      { specialize (Hcalm (in_elt _ _ _) Hk). apply andb_prop in Ets. destruct Ets as [E1 E2].
        rewrite E1, E2 in Hcalm. rewrite andb_true_r in Hcalm. exact Hcalm. }
      destruct (rfind_key (s_buf s) (ek e)) as [j|] eqn:Erf.
      * destruct (rfind_index_split _ _ _ _ Erf) as (ba & x & bb & Hbf & Hbk & Hbr).
        unfold has_key in Hbk. apply N.eqb_eq in Hbk.
        change (oinv D (set_buf (remove_at j (s_buf s)) (set_down
          (update_at i (fun o => OD (od_key o) (od_trigger o) (od_suppressed o) (od_temp o) false (od_ctx o)) (s_down s)) s))).
        rewrite Hu, Hbr. apply Hrepl; [reflexivity| |cbn; auto].
        intros k _ H Hne. rewrite Hbf, app_assoc. rewrite down_after_remove by congruence.
        rewrite <- app_assoc. exact H.
      * rewrite Hu. replace (set_down _ s) with (set_buf (s_buf s) (set_down (a ++ OD (od_key o) (od_trigger o) (od_suppressed o) (od_temp o) false (od_ctx o) :: b) s)) by (destruct s; reflexivity).
        apply Hrepl; [reflexivity|auto|cbn; auto].
    + unfold emit. cbn [s_buf set_down].
      assert (Hb : forall k, is_down_after (D ++ s_buf s ++ [e]) k = true -> k <> od_key o ->
                   is_down_after (D ++ s_buf s) k = true).
      { intros k H Hne. rewrite app_assoc, down_after_snoc in H.
        destruct (N.eqb_spec (ek e) k); [congruence|auto]. }
      assert (Hself : is_down_after (D ++ s_buf s ++ [e]) (od_key o) = true -> False).
      { rewrite app_assoc, down_after_snoc, Hk, N.eqb_refl, Ee. discriminate. }
      destruct (get_trigger_key (od_trigger o) =? get_trigger_key t).
      * rewrite Hr. rewrite Hd in Hnd. destruct (nodup_keys_remove _ _ _ Hnd) as [Hn1 _].
        split; cbn; [exact Hn1|]. intros k Hkt H.
        destruct (N.eq_dec k (od_key o)) as [->|Hne]; [contradiction|].
        specialize (Hh k Hkt (Hb k H Hne)). rewrite Hd in Hh. apply heldl_app in Hh.
        destruct Hh as [Hh|[? _]]; [auto|congruence].
      * rewrite Hu. apply Hrepl; [reflexivity|auto|contradiction].
  - (* Down *)
    destruct (reapply_loop (ek e) (s_down s) (s_buf s) (s_reapplied s)) as [[[d bf] rea] ret] eqn:Er.
    destruct (reapply_spec D _ _ _ _ _ _ _ _ Er) as [H1 [H2 H3]].
    assert (Hinv1 : oinv D (set_reapplied rea (set_buf bf (set_down d s)))).
    { split; cbn.
      - rewrite (reapp_keys _ _ H1). exact Hnd.
      - intros k Hkt Hdn. destruct (H2 k Hdn) as [Hx|Hx]; [|exact Hx].
        eapply reapp_held; eauto. }
    destruct ret; [exact Hinv1|].
    destruct Hinv1 as [Hnd1 Hh1]. cbn in Hnd1, Hh1.
    destruct (find_index (fun o => od_key o =? ek e) (s_down s)) as [i|] eqn:Ef.
    + (* already pressed *)
      assert (Ef' : find_index (fun o => od_key o =? ek e) d = Some i).
      { assert (Hfi : forall l l', Forall2 reapp l l' ->
          find_index (fun o => od_key o =? ek e) l' = find_index (fun o => od_key o =? ek e) l).
        { clear. induction 1 as [|o o' l l' [Ho _] _ IH]; [reflexivity|]. cbn. rewrite Ho, IH. reflexivity. }
        rewrite (Hfi _ _ H1). exact Ef. }
      destruct (find_index_split _ _ _ _ Ef') as (a & o & b & Hd & Hk & _ & Hn & Hr & Hu).
      apply N.eqb_eq in Hk.
      cbn [s_reapplied set_reapplied].
      assert (Hgoal : forall bf' o', od_key o' = od_key o -> od_temp o' = false ->
        (forall k, is_down_after (D ++ bf') k = true -> k <> od_key o -> is_down_after (D ++ bf) k = true) ->
        forall s', s_down s' = a ++ o' :: b -> s_buf s' = bf' -> oinv D s').
      { intros bf' o' Hk' Ht' Hb s' Es' Eb'. split; rewrite Es'.
        - eapply nodup_keys_replace; [exact Hk'|]. rewrite <- Hd. exact Hnd1.
        - rewrite Eb'. intros k Hkt H. apply heldl_app.
          destruct (N.eq_dec k (od_key o)) as [->|Hne]; [right; auto|].
          specialize (Hh1 k Hkt (Hb k H Hne)). rewrite Hd in Hh1. apply heldl_app in Hh1.
          destruct Hh1 as [?|[? _]]; [auto|congruence]. }
      destruct rea; cbn; rewrite Hu; (eapply Hgoal; [| | |reflexivity|reflexivity]); try reflexivity.
      * intros k H Hne. unfold emit in H. cbn in H. rewrite !app_assoc in H. rewrite !down_after_snoc in H. cbn in H.
        destruct (N.eqb_spec (ek e) k); [congruence|auto].
      * intros k H Hne. unfold emit in H. cbn in H. rewrite !app_assoc in H. rewrite !down_after_snoc in H. cbn in H.
        destruct (N.eqb_spec (ek e) k); [congruence|auto].
    + (* not pressed yet *)
      destruct (N.eqb_spec (ek e) k_timeout) as [Et|Et].
      * split; cbn; [exact Hnd1|]. intros k Hkt H. rewrite app_assoc, down_after_snoc in H.
        destruct (N.eqb_spec (ek e) k); [congruence|]. auto.
      * split; cbn.
        -- rewrite map_app. cbn. rewrite (reapp_keys _ _ H1).
           apply find_index_none in Ef. rewrite Forall_forall in Ef.
           assert (Hni : ~ In (ek e) (map od_key (s_down s))).
           { intros Hi. apply in_map_iff in Hi. destruct Hi as [x [Hx Hi]]. specialize (Ef x Hi).
             cbn in Ef. apply N.eqb_neq in Ef. contradiction. }
           apply NoDup_rev in Hnd. rewrite <- (rev_involutive (map od_key (s_down s) ++ [ek e])).
           apply NoDup_rev. rewrite rev_app_distr. cbn. constructor; [|exact Hnd].
           rewrite <- in_rev. exact Hni.
        -- intros k Hkt H. rewrite app_assoc, down_after_snoc in H. rewrite heldl_app.
           destruct (N.eqb_spec (ek e) k); [right; cbn; auto|]. left. rewrite app_nil_r. auto.
  - (* Not *)
    destruct (find_index (fun o => od_key o =? ek e) (s_down s)) as [i|] eqn:Ef; [|split; auto].
    destruct (is_virtual_key (ek e) || is_action_key (ek e)); [split; auto|].
    destruct (find_index_split _ _ _ _ Ef) as (a & o & b & Hd & Hk & _ & Hn & Hr & Hu).
    rewrite Hn. apply N.eqb_eq in Hk.
    assert (Hgoal : forall s', s_down s' = a ++ OD (od_key o) (od_trigger o) true true (od_twice o) (od_ctx o) :: b ->
       (forall k, is_down_after (D ++ s_buf s') k = true -> k <> od_key o -> is_down_after (D ++ s_buf s) k = true) ->
       (is_down_after (D ++ s_buf s') (od_key o) = true -> od_key o = k_timeout) -> oinv D s').
    { intros s' Es' Hb Ho. split; rewrite Es'.
      - eapply nodup_keys_replace; [|rewrite <- Hd; exact Hnd]. reflexivity.
      - intros k Hkt H. apply heldl_app. destruct (N.eq_dec k (od_key o)) as [->|Hne].
        + specialize (Ho H). contradiction.
        + left. specialize (Hh k Hkt (Hb k H Hne)). rewrite Hd in Hh. apply heldl_app in Hh.
          destruct Hh as [?|[? _]]; [auto|congruence]. }
    destruct (od_temp o) eqn:Et; cbn; rewrite Hu.
    + apply Hgoal; [reflexivity|auto|]. cbn. intros H.
      destruct (N.eq_dec (od_key o) k_timeout) as [?|Hne]; [auto|]. exfalso.
      specialize (Hh _ Hne H). rewrite Hd in Hh, Hnd. apply heldl_app in Hh.
      destruct (nodup_keys_remove _ _ _ Hnd) as [_ Hn2]. destruct Hh as [?|[_ ?]]; [contradiction|congruence].
    + apply Hgoal; [reflexivity| |].
      * cbn. intros k H Hne. rewrite app_assoc, down_after_snoc in H. cbn in H.
        destruct (N.eqb_spec (ek e) k); [congruence|auto].
      * cbn. rewrite app_assoc, down_after_snoc. cbn. rewrite Hk, N.eqb_refl. discriminate.
Qed.

Lemma calm_replace : forall a o o' b k,
  od_key o' = od_key o ->
  (od_twice o && od_temp o && negb (od_suppressed o) = false ->
   od_twice o' && od_temp o' && negb (od_suppressed o') = false) ->
  calm (a ++ o :: b) k -> calm (a ++ o' :: b) k.
Proof.
  intros a o o' b k Hk H Hc x Hi Hx. apply in_app_or in Hi. destruct Hi as [Hi|[<-|Hi]].
  - apply Hc; auto. apply in_or_app; auto.
  - apply H. apply Hc; [apply in_elt|congruence].
  - apply Hc; auto. apply in_or_app; right; right; auto.
Qed.

Lemma calm_remove : forall a o b k, calm (a ++ o :: b) k -> calm (a ++ b) k.
Proof.
  intros a o b k Hc x Hi Hx. apply Hc; auto. apply in_app_or in Hi. apply in_or_app. cbn. tauto.
Qed.

Lemma update_output_calm : forall e t ci s k,
  NoDup (map od_key (s_down s)) ->
  calm (s_down s) k \/ (es e = Down /\ ek e = k) ->
  calm (s_down (update_output e t ci s)) k.
Proof.
  intros e t ci s k Hnd Hor. unfold update_output.
  destruct (es e) eqn:Ee; try (destruct Hor as [?|[? _]]; [assumption|discriminate]).
  - destruct Hor as [Hc|[? _]]; [|discriminate].
    destruct (find_index (fun o => od_key o =? ek e) (s_down s)) as [i|] eqn:Ef; [|auto].
    destruct (find_index_split _ _ _ _ Ef) as (a & o & b & Hd & Hk & _ & Hn & Hr & Hu).
    rewrite Hn.
    destruct (od_twice o && is_virtual_key (ek e)) eqn:Etv; [|destruct (od_twice o && negb (od_suppressed o)) eqn:Ets].
    + cbn. rewrite Hu. rewrite Hd in Hc. eapply calm_replace; [| |exact Hc]; [reflexivity|]. reflexivity.
    + destruct (rfind_key (s_buf s) (ek e)); cbn; rewrite Hu; rewrite Hd in Hc;
        (eapply calm_replace; [| |exact Hc]; [reflexivity|]; reflexivity).
    + cbn. destruct (get_trigger_key (od_trigger o) =? get_trigger_key t).
      * rewrite Hr. rewrite Hd in Hc. eapply calm_remove; eauto.
      * rewrite Hu. rewrite Hd in Hc. eapply calm_replace; [| |exact Hc]; [reflexivity|].
        cbn. intros _. rewrite andb_true_r. exact Ets.
  - destruct (reapply_loop (ek e) (s_down s) (s_buf s) (s_reapplied s)) as [[[d bf] rea] ret] eqn:Er.
    destruct (reapply_spec [] _ _ _ _ _ _ _ _ Er) as [H1 [_ H3]].
    assert (Hnd1 : NoDup (map od_key d)) by (rewrite (reapp_keys _ _ H1); auto).
    assert (Hother : k <> ek e -> calm d k).
    { intros Hne. destruct Hor as [Hc|[_ ?]]; [|congruence]. eapply reapp_calm; eauto. }
    destruct ret.
    + cbn. destruct (N.eq_dec k (ek e)) as [->|Hne]; [|auto].
      destruct (H3 eq_refl) as [x [Hx [Hxk Hxt]]]. intros y Hy Hyk.
      assert (y = x); [|subst y; rewrite Hxt, andb_false_r; reflexivity].
      clear -Hnd1 Hx Hy Hxk Hyk. induction d as [|z d IH]; [contradiction|].
      cbn in Hnd1. inversion_clear Hnd1.
      assert (forall w, In w d -> od_key w = od_key z -> False).
      { intros w Hw Hwz. apply H. rewrite <- Hwz. apply in_map. auto. }
      destruct Hx as [->|Hx], Hy as [->|Hy]; auto; exfalso;
        (eapply H1; [eassumption|congruence]).
    + destruct (find_index (fun o => od_key o =? ek e) (s_down s)) as [i|] eqn:Ef.
      * assert (Ef' : find_index (fun o => od_key o =? ek e) d = Some i).
        { assert (Hfi : forall l l', Forall2 reapp l l' ->
            find_index (fun o => od_key o =? ek e) l' = find_index (fun o => od_key o =? ek e) l).
          { clear. induction 1 as [|o o' l l' [Ho _] _ IH]; [reflexivity|]. cbn. rewrite Ho, IH. reflexivity. }
          rewrite (Hfi _ _ H1). exact Ef. }
        destruct (find_index_split _ _ _ _ Ef') as (a & o & b & Hd & Hk & _ & Hn & Hr & Hu).
        apply N.eqb_eq in Hk.
        assert (Hg : forall o', od_key o' = od_key o -> od_temp o' = false -> calm (a ++ o' :: b) k).
        { intros o' Hk' Ht' x Hi Hx. apply in_app_or in Hi.
          destruct Hi as [Hi|[<-|Hi]]; [|rewrite Ht', andb_false_r; reflexivity|];
            (apply Hother; [|rewrite Hd; apply in_or_app; cbn; tauto|exact Hx]);
            intros ->; rewrite Hd, map_app in Hnd1; cbn in Hnd1; apply NoDup_remove in Hnd1;
            apply (proj2 Hnd1); rewrite Hk, <- Hx, <- map_app; apply in_map, in_or_app; auto. }
        destruct rea; cbn; rewrite Hu; apply Hg; reflexivity.
      * assert (Hk0 : calm d k).
        { destruct (N.eq_dec k (ek e)) as [->|Hne]; [|auto].
          intros x Hx Hxk. exfalso. apply find_index_none in Ef.
          assert (Hi : In (ek e) (map od_key (s_down s))).
          { rewrite <- (reapp_keys _ _ H1), <- Hxk. apply in_map. auto. }
          apply in_map_iff in Hi. destruct Hi as [y [Hy Hi]]. rewrite Forall_forall in Ef.
          specialize (Ef y Hi). cbn in Ef. apply N.eqb_neq in Ef. contradiction. }
        destruct (ek e =? k_timeout); cbn; [exact Hk0|].
        intros x Hi Hx. apply in_app_or in Hi. destruct Hi as [Hi|[<-|[]]]; [apply Hk0; auto|reflexivity].
  - destruct Hor as [Hc|[? _]]; [|discriminate].
    destruct (find_index (fun o => od_key o =? ek e) (s_down s)) as [i|] eqn:Ef; [|auto].
    destruct (is_virtual_key (ek e) || is_action_key (ek e)); [auto|].
    destruct (find_index_split _ _ _ _ Ef) as (a & o & b & Hd & Hk & _ & Hn & Hr & Hu).
    rewrite Hn. destruct (od_temp o); cbn; rewrite Hu; rewrite Hd in Hc;
      (eapply calm_replace; [| |exact Hc]; [reflexivity|]; cbn; intros _; apply andb_false_r).
Qed.

(** * apply_output *)

Lemma oinv_same : forall D s s',
  s_down s' = s_down s -> s_buf s' = s_buf s -> oinv D s -> oinv D s'.
Proof. unfold oinv. intros D s s' -> ->. auto. Qed.

(** The keys an output event stands for. *)
Definition covered (s : state) (k : key) : Prop :=
  if k =? k_any then Forall (calm (s_down s)) (s_any s) else calm (s_down s) k.

Lemma update_output_any : forall e t ci s, s_any (update_output e t ci s) = s_any s.
Proof. intros. pose proof (update_output_frame e t ci s) as H. unfold same_out in H. intuition. Qed.

Lemma update_output_covered : forall e t ci s k,
  NoDup (map od_key (s_down s)) -> covered s k -> covered (update_output e t ci s) k.
Proof.
  intros e t ci s k Hn. unfold covered. rewrite update_output_any. destruct (k =? k_any).
  - intros H. eapply Forall_impl; [|exact H]. intros j Hj. apply update_output_calm; auto.
  - intros H. apply update_output_calm; auto.
Qed.

Lemma fold_inv : forall D st t ci ks s,
  oinv D s -> (st = Up -> Forall (calm (s_down s)) ks) ->
  oinv D (fold_left (fun s k => update_output (ev0 k st) t ci s) ks s).
Proof.
  induction ks as [|k ks IH]; intros s Hi Hc; [exact Hi|].
  cbn [fold_left]. apply IH.
  - apply update_output_inv; [exact Hi|]. cbn. intros E. specialize (Hc E). inversion Hc; auto.
  - intros E. specialize (Hc E). inversion_clear Hc. eapply Forall_impl; [|exact H0].
    intros j Hj. apply update_output_calm; [apply Hi|auto].
Qed.

Lemma fold_covered : forall D st t ci ks s k,
  oinv D s -> (st = Up -> Forall (calm (s_down s)) ks) -> covered s k ->
  covered (fold_left (fun s k => update_output (ev0 k st) t ci s) ks s) k.
Proof.
  induction ks as [|j ks IH]; intros s k Hi Hu Hc; [exact Hc|]. cbn [fold_left].
  apply IH.
  - apply update_output_inv; [exact Hi|]. cbn. intros E. specialize (Hu E). inversion Hu; auto.
  - intros E. specialize (Hu E). inversion_clear Hu. eapply Forall_impl; [|exact H0].
    intros i Hj. apply update_output_calm; [apply Hi|auto].
  - apply update_output_covered; [apply Hi|exact Hc].
Qed.

Lemma fold_calm : forall D t ci ks s k,
  oinv D s -> In k ks \/ calm (s_down s) k ->
  calm (s_down (fold_left (fun s k => update_output (ev0 k Down) t ci s) ks s)) k.
Proof.
  induction ks as [|j ks IH]; intros s k Hi Hc; [destruct Hc as [[]|Hc]; exact Hc|].
  cbn [fold_left]. apply IH.
  - apply update_output_inv; [exact Hi|discriminate].
  - destruct Hc as [[E|Hc]|Hc]; [right|left; exact Hc|right];
      (apply update_output_calm; [apply Hi|cbn; auto]).
Qed.

Lemma fold_update_any : forall st t ci ks s,
  s_any (fold_left (fun s k => update_output (ev0 k st) t ci s) ks s) = s_any s.
Proof.
  intros. pose proof (fold_update_frame st t ci ks s) as H. unfold same_out in H. intuition.
Qed.

Lemma balanced_weaken : forall l p q, incl p q -> balanced p l -> balanced q l.
Proof.
  induction l as [|e l IH]; intros p q H; cbn; [auto|].
  destruct (es e); try (apply IH; auto).
  - intros [H1 H2]. split; [auto|]. eapply IH; eauto.
  - intros x [Hx|Hx]; [left; auto|right; auto].
  - auto with datatypes.
Qed.

Definition oi (D : sequence) (s : state) : Prop :=
  oinv D s /\ Forall (fun o => balanced [] (or_seq o)) (s_onrel s).

Lemma apply_output_inv : forall D t ci sq s pressed,
  oi D s -> balanced pressed sq -> Forall (covered s) pressed -> oi D (apply_output sq t ci s).
Proof.
  intros D t ci. induction sq as [|e r IH]; intros s p [Hi Ho] Hb Hp; [split; auto|].
  cbn [apply_output]. cbn [balanced] in Hb.
  destruct (N.eqb_spec (ek e) k_any) as [Ek|Ek].
  - (* Any *)
    assert (Hor : forall st ks,
      s_onrel (fold_left (fun s k => update_output (ev0 k st) t ci s) ks s) = s_onrel s).
    { intros st ks. pose proof (fold_update_frame st t ci ks s) as H. unfold same_out in H. intuition. }
    assert (Hdn : forall k, covered s k \/ k = k_any -> covered (fold_left (fun s k => update_output (ev0 k Down) t ci s) (s_any s) s) k).
    { intros k Hk. unfold covered in *. rewrite fold_update_any. destruct (N.eqb_spec k k_any) as [Hy|Hne].
      - apply Forall_forall. intros j Hj. eapply fold_calm; eauto.
      - destruct Hk as [Hk|?]; [|contradiction]. eapply fold_calm; eauto. }
    destruct (es e) eqn:Ee;
      try (apply (IH _ p); [split; [apply fold_inv; [exact Hi|discriminate]|rewrite Hor; exact Ho]|exact Hb
              |eapply Forall_impl; [|exact Hp]; intros k Hk; eapply fold_covered; eauto; discriminate]).
    + destruct Hb as [Hin Hb].
      assert (Hu : Forall (calm (s_down s)) (s_any s)).
      { rewrite Forall_forall in Hp. specialize (Hp _ Hin). unfold covered in Hp.
        rewrite Ek in Hp. exact Hp. }
      apply (IH _ p); [split; [apply fold_inv; auto|rewrite Hor; exact Ho]|exact Hb|].
      eapply Forall_impl; [|exact Hp]. intros k Hk. eapply fold_covered; eauto.
    + apply (IH _ (ek e :: p)); [split; [apply fold_inv; [exact Hi|discriminate]|rewrite Hor; exact Ho]|exact Hb|].
      constructor; [auto|]. eapply Forall_impl; [|exact Hp]. intros k Hk. auto.
    + apply (IH _ []); [split; [apply fold_inv; [exact Hi|discriminate]|rewrite Hor; exact Ho]|exact Hb|constructor].
  - assert (Hor : forall e', s_onrel (update_output e' t ci s) = s_onrel s).
    { intros e'. pose proof (update_output_frame e' t ci s) as H. unfold same_out in H. intuition. }
    assert (Hp' : forall e', Forall (covered (update_output e' t ci s)) p).
    { intros e'. eapply Forall_impl; [|exact Hp]. intros k Hk. apply update_output_covered; [apply Hi|exact Hk]. }
    destruct (es e) eqn:Ee;
      try (apply (IH _ p); [split; [apply update_output_inv; [exact Hi|congruence]|rewrite Hor; exact Ho]|exact Hb|apply Hp']).
    + destruct Hb as [Hin Hb].
      apply (IH _ p); [split; [apply update_output_inv; [exact Hi|]|rewrite Hor; exact Ho]|exact Hb|apply Hp'].
      intros _. rewrite Forall_forall in Hp. specialize (Hp _ Hin). unfold covered in Hp.
      apply N.eqb_neq in Ek. rewrite Ek in Hp. exact Hp.
    + apply (IH _ (ek e :: p)); [split; [apply update_output_inv; [exact Hi|congruence]|rewrite Hor; exact Ho]|exact Hb|].
      constructor; [|apply Hp']. unfold covered. apply N.eqb_neq in Ek. rewrite Ek.
      apply update_output_calm; [apply Hi|auto].
    + destruct (is_virtual_key (ek e)).
      * destruct (existsb _ (s_seq s)).
        -- apply (IH _ p); [split; [apply update_output_inv; [exact Hi|discriminate]|rewrite Hor; exact Ho]|exact Hb|apply Hp'].
        -- apply (IH _ p); [split; auto|exact Hb|exact Hp].
      * apply (IH _ p); [split; [apply update_output_inv; [exact Hi|congruence]|rewrite Hor; exact Ho]|exact Hb|apply Hp'].
    + assert (G : oi D (apply_output r t ci s)) by (apply (IH _ []); [split; auto|exact Hb|constructor]).
      destruct (es (get_trigger_event t)); try exact G.
      split; [exact Hi|]. cbn. apply Forall_app. split; [exact Ho|]. constructor; [exact Hb|constructor].
Qed.

(** * release_triggered *)

Lemma down_after_ups : forall ks l k,
  is_down_after (l ++ map (fun j => ev0 j Up) ks) k = true ->
  is_down_after l k = true /\ ~ In k ks.
Proof.
  induction ks as [|j ks IH] using rev_ind; intros l k H; [rewrite app_nil_r in H; auto|].
  rewrite map_app in H. cbn in H. rewrite app_assoc, down_after_snoc in H. cbn in H.
  destruct (N.eqb_spec j k) as [->|Hne]; [discriminate|].
  destruct (IH _ _ H) as [H1 H2]. split; [exact H1|]. intros Hi. apply in_app_or in Hi.
  destruct Hi as [Hi|[Hi|[]]]; auto.
Qed.

Lemma release_down : forall k ci s,
  s_down (release_triggered k ci s) = filter (keep_triggered k ci) (s_down s) /\
  s_onrel (release_triggered k ci s) = s_onrel s /\
  s_buf (release_triggered k ci s) = s_buf s ++ map (fun j => ev0 j Up)
    (map od_key (filter (fun o => negb (od_temp o))
      (rev (filter (fun o => negb (keep_triggered k ci o)) (s_down s))))).
Proof.
  intros k ci s. unfold release_triggered. rewrite map_map.
  destruct (s_timeout _) as [c|]; [destruct (ct_trigger c =? k)|]; cbn; auto.
Qed.

Lemma release_inv : forall D k ci s, oi D s -> oi D (release_triggered k ci s).
Proof.
  intros D k ci s [[Hn Hh] Ho].
  destruct (release_down k ci s) as [E1 [E2 E3]].
  split; [|rewrite E2; exact Ho]. split; rewrite E1.
  - clear -Hn. induction (s_down s) as [|o l IH]; [constructor|]. cbn in Hn. inversion_clear Hn.
    cbn [filter]. destruct (keep_triggered k ci o); [|auto]. cbn. constructor; [|auto].
    intros Hi. apply H. apply in_map_iff in Hi. destruct Hi as [x [Hx Hi]].
    apply filter_In in Hi. apply in_map_iff. exists x. intuition.
  - rewrite E3. intros j Hj H. rewrite app_assoc in H. apply down_after_ups in H.
    destruct H as [H Hni]. destruct (Hh j Hj H) as [o [Hi [Hk Ht]]].
    exists o. split; [|auto]. apply filter_In. split; [exact Hi|].
    destruct (keep_triggered k ci o) eqn:Ek; [reflexivity|]. exfalso. apply Hni.
    apply in_map_iff. exists o. split; [exact Hk|]. apply filter_In. rewrite Ht. split; [|reflexivity].
    rewrite <- in_rev. apply filter_In. rewrite Ek. auto.
Qed.

Lemma Forall_remove_at' : forall A (P : A -> Prop) i l, Forall P l -> Forall P (remove_at i l).
Proof.
  induction i as [|i IH]; intros [|x l] H; cbn; auto; inversion_clear H; auto.
Qed.

Lemma continue_inv : forall D e ci s, oi D s -> oi D (fst (continue_output_on_release e ci s)).
Proof.
  intros D e ci s [Hi Ho]. unfold continue_output_on_release.
  destruct (find_index _ (s_onrel s)) as [i|]; [|split; auto].
  assert (G : oi D (fst match nth_error (s_onrel s) i with
             | Some o => let s0 := apply_output (or_seq o) (TEvent e) (or_ctx o) s in
                         (set_onrel (remove_at i (s_onrel s0)) s0, true)
             | None => (s, true) end)).
  { destruct (nth_error (s_onrel s) i) as [o|] eqn:En; [|split; auto].
    cbn zeta. cbn [fst].
    assert (Hb : balanced [] (or_seq o)).
    { rewrite Forall_forall in Ho. apply Ho. eapply nth_error_In; eauto. }
    destruct (apply_output_inv D (TEvent e) (or_ctx o) (or_seq o) s [] (conj Hi Ho) Hb (Forall_nil _)) as [H1 H2].
    split; [exact H1|]. cbn. apply Forall_remove_at'. exact H2. }
  destruct (es e); try exact G. split; auto.
Qed.

(** * forward_from_sequence *)

Lemma forward_inv : forall D l pre s, oi D s -> oi D (forward_loop pre l s).
Proof.
  induction l as [|e r IH]; intros pre s H; [exact H|]. cbn [forward_loop].
  assert (Hr : forall q, oi D (set_seq q (release_triggered (ek e) None s))).
  { intros q. exact (release_inv D (ek e) None s H). }
  assert (Hu : es e <> Up -> oi D (update_output e (TKey (ek e)) None s)).
  { intros Hne. destruct H as [Hi Ho]. split; [apply update_output_inv; [exact Hi|contradiction]|].
    pose proof (update_output_frame e (TKey (ek e)) None s) as F. unfold same_out in F.
    destruct F as (_ & _ & _ & _ & _ & _ & _ & _ & -> & _). exact Ho. }
  destruct (es e) eqn:Ee; try apply Hr.
  - destruct (contains_ev _ _); [apply Hu; congruence|].
    destruct (s_timeout s) as [c|]; [destruct (ct_output c)|];
      [exact H| |]; apply Hu; congruence.
  - destruct (contains_ev _ _); [apply Hu; congruence|apply IH; exact H].
Qed.

(** * Matching *)

Lemma match_loop_timeout : forall fuel ex sq m r anys t,
  match_loop fuel ex sq m = Some (r, anys, Some t) -> ek t = k_timeout.
Proof.
  induction fuel as [|f IH]; intros ex sq m r anys t H.
  - destruct ex, sq; discriminate.
  - assert (G : forall ee se b m', match_step ee se b m = MRet m' (Some t) -> ek t = k_timeout).
    { intros ee se b m'. unfold match_step.
      repeat match goal with
      | |- context [if ?c then _ else _] => destruct c eqn:?
      | |- context [match find_index ?f ?l with _ => _ end] => destruct (find_index f l) eqn:?
      end; intros E; try discriminate; injection E as _ <-;
      match goal with H : (ek ee =? k_timeout) && _ = true |- _ =>
        apply andb_prop in H; destruct H as [H _]; apply N.eqb_eq in H; exact H end. }
    cbn [match_loop] in H. destruct ex as [|e ex], sq as [|x sq]; [discriminate|..];
      (destruct (match_step _ _ _ m) as [r' t'|ae as_ m'] eqn:Es;
       [injection H as _ _ ->; eapply G; eauto|eapply IH; eauto]).
Qed.

Lemma emit_timeout_inv : forall D e s, ek e = k_timeout -> oi D s -> oi D (emit e s).
Proof.
  intros D e s He [[Hn Hh] Ho]. split; [|exact Ho]. split; [exact Hn|]. cbn.
  intros k Hk H. rewrite app_assoc, down_after_snoc in H.
  destruct (N.eqb_spec (ek e) k); [congruence|auto].
Qed.

Lemma on_might_match_inv : forall D t sq u s,
  (forall e, t = Some e -> ek e = k_timeout) -> oi D s -> oi D (on_might_match t sq u s).
Proof.
  intros D [te|] sq u s Ht H; [|exact H]. unfold on_might_match.
  assert (He := emit_timeout_inv D te s (Ht te eq_refl) H).
  destruct (find_last_down_event sq) as [tr|]; [|exact He].
  match goal with |- context [if ?c then _ else _] => destruct c end; [exact He|].
  destruct u; [|exact He].
  replace (set_buf (pop_back (s_buf (emit te s))) (emit te s)) with (set_buf (s_buf s) (emit te s)).
  - eapply (conj (oinv_same D s _ eq_refl eq_refl (proj1 H)) (proj2 H)).
  - f_equal. cbn. unfold pop_back. rewrite removelast_last. reflexivity.
Qed.

Section WithContexts.
Variable cs : list context.
Hypothesis Hbal : balanced_config cs.

Lemma find_output_balanced : forall act ci c idx r o,
  nth_error cs ci = Some c -> find_output cs act ci c idx = LFound r o -> balanced [] o.
Proof.
  intros act ci c idx r o Hc H. unfold find_output in H.
  assert (Hcs : forall i c, nth_error cs i = Some c -> Forall (balanced []) (cx_outputs c) /\
                 Forall (fun m => balanced [] (cm_out m)) (cx_commands c)).
  { intros i c' Hi. unfold balanced_config in Hbal. rewrite Forall_forall in Hbal. apply Hbal.
    eapply nth_error_In; eauto. }
  destruct (0 <=? idx)%Z.
  - destruct (nth_error (cx_outputs c) (Z.to_nat idx)) as [o'|] eqn:En; [|discriminate].
    injection H as _ <-. destruct (Hcs _ _ Hc) as [H1 _]. rewrite Forall_forall in H1. apply H1.
    eapply nth_error_In; eauto.
  - induction (rev act) as [|a l IH]; [discriminate|]. cbn [find_command_output] in H.
    destruct (fallthrough_context cs a) as [f|]; [|discriminate].
    destruct (nth_error cs f) as [cf|] eqn:Ef; [|discriminate].
    destruct (find_command (cx_commands cf) idx) as [i|]; [|auto].
    destruct (nth_error (cx_commands cf) i) as [cm|] eqn:Em; [|discriminate].
    injection H as _ <-. destruct (Hcs _ _ Ef) as [_ H2]. rewrite Forall_forall in H2.
    apply H2. eapply nth_error_In; eauto.
Qed.

Definition bal_result (r : min_result) : Prop :=
  match r with RMatch _ o _ _ => balanced [] o | _ => True end.

Lemma match_inputs_inv : forall D first sq dev u ci c l s,
  nth_error cs ci = Some c -> oi D s ->
  let '(s', r) := match_inputs cs first sq dev u ci c l s in
  oi D s' /\ match r with Some r => bal_result r | None => True end.
Proof.
  intros D first sq dev u ci c l. induction l as [|i l IH]; intros s Hc H; [split; auto|].
  cbn [match_inputs].
  destruct (_ && (_ || _)); [apply IH; auto|]. destruct (_ && (_ =? _)%Z); [apply IH; auto|].
  destruct (match_keys (in_seq i) _) as [[[res anys] t]|] eqn:Em; [|split; [exact H|exact I]].
  set (s1 := ub_unless _ (set_any anys s)).
  assert (H1 : oi D s1).
  { unfold s1, ub_unless. destruct (in_seq i); exact H. }
  destruct res; [apply IH; auto| |].
  - destruct (first && _); [|apply IH; auto]. split; [|exact I].
    apply on_might_match_inv; [|exact H1]. intros e ->.
    eapply match_loop_timeout. exact Em.
  - destruct (find_output cs (s_active s1) ci c (in_out i)) as [r o| |] eqn:Ef; [|apply IH; auto|split; [exact H1|exact I]].
    split; [exact H1|]. cbn. eapply find_output_balanced; eauto.
Qed.

Lemma match_contexts_inv : forall D first sq dev u act s,
  oi D s -> let '(s', r) := match_contexts cs first sq dev u act s in oi D s' /\ bal_result r.
Proof.
  intros D first sq dev u. induction act as [|ci act IH]; intros s H; [split; [exact H|exact I]|].
  cbn [match_contexts]. destruct (nth_error cs ci) as [c|] eqn:Ec; [|split; [exact H|exact I]].
  destruct (device_matches_filter c dev); [|apply IH; exact H].
  pose proof (match_inputs_inv D first sq dev u ci c (cx_inputs c) s Ec H) as Hm.
  destruct (match_inputs _ _ _ _ _ _ _ _ _) as [s1 [r|]]; [exact Hm|apply IH; apply Hm].
Qed.

Lemma match_input_inv : forall D first sq dev u s,
  oi D s -> let '(s', r) := match_input cs first sq dev u s in oi D s' /\ bal_result r.
Proof.
  intros. unfold match_input. apply match_contexts_inv.
  unfold ub_unless. destruct (valid_device dev); exact H.
Qed.

Lemma match_prefixes_inv : forall D n dev u s,
  oi D s -> let '(s', r) := match_prefixes cs n dev u s in
  oi D s' /\ match r with Some (_, r) => bal_result r | None => True end.
Proof.
  intros D n dev u. induction n as [|n IH]; intros s H; [split; auto|].
  cbn [match_prefixes]. destruct (Nat.ltb 1 (S n)); [|split; auto].
  destruct (negb _); [split; auto|].
  pose proof (match_input_inv D false (firstn n (s_seq s)) dev u s H) as Hm.
  destruct (match_input _ _ _ _ _ _) as [s1 r]. destruct Hm as [H1 H2].
  destruct r; try (apply IH; exact H1). split; [exact H1|exact H2].
Qed.

(** * The loop *)

Lemma round_inv : forall D e dev s, oi D s -> oi D (fst (apply_round cs e dev s)).
Proof.
  intros D e dev s H. unfold apply_round.
  set (u := _ && _).
  pose proof (match_input_inv D true (s_seq s) dev u s H) as Hm.
  destruct (match_input cs true (s_seq s) dev u s) as [s1 res]. destruct Hm as [H1 Hb].
  destruct (is_virtual_key (ek e) && _); [exact H1|].
  assert (Hgo : forall s len res so, oi D s -> bal_result res ->
    oi D (fst (let '(s, res) := timeout_after_match e so res s in
        let s := not_timeout_after_match res s in
        match res with
        | RMatch _ o inp ci =>
            let t := select_trigger e inp o s in
            let s := apply_output o t (Some ci) s in
            let s := finish_sequence len s in
            ((if so then s else set_might false s), false)
        | _ =>
            let s := forward_from_sequence s in
            ((if s_might s && negb (has_non_optional (s_seq s)) then set_might false s else s),
             false)
        end))).
  { clear. intros s len res so H Hb.
    assert (Ht : oi D (fst (timeout_after_match e so res s)) /\ bal_result (snd (timeout_after_match e so res s))).
    { unfold timeout_after_match.
      destruct (s_timeout s) as [c|]; [|auto]. destruct (is_not_timeout _); [auto|].
      destruct (ek e =? k_timeout).
      - destruct res; [auto|auto|]. destruct (ct_output c) as [r0|].
        + destruct (oref_eqb r0 r); [auto|split; [exact H|exact I]].
        + destruct so; [auto|split; [exact H|exact Hb]].
      - destruct res; auto. }
    destruct (timeout_after_match e so res s) as [s1 r1]. cbn [fst snd] in Ht. destruct Ht as [H1 Hb1].
    assert (H2 : oi D (not_timeout_after_match r1 s1)).
    { unfold not_timeout_after_match. destruct (s_timeout s1) as [c|]; [|exact H1].
      destruct (is_not_timeout _); [|exact H1]. destruct r1; exact H1. }
    cbn zeta. set (s2 := not_timeout_after_match r1 s1) in *. clearbody s2.
    assert (Hf : oi D (fst ((if s_might (forward_from_sequence s2) && negb (has_non_optional (s_seq (forward_from_sequence s2)))
        then set_might false (forward_from_sequence s2) else forward_from_sequence s2), false))).
    { pose proof (forward_inv D (s_seq s2) [] s2 H2) as Hf. destruct (_ && _); exact Hf. }
    destruct r1 as [| |r o inp ci]; try exact Hf.
    pose proof (apply_output_inv D (select_trigger e inp o s2) (Some ci) o s2 [] H2 Hb1 (Forall_nil _)) as Ha.
    destruct so; exact Ha. }
  destruct res as [|inp ci|r o inp ci].
  - cbn [negb]. destruct (s_might s1); cbn [andb].
    + pose proof (match_prefixes_inv D (length (s_seq s)) dev u s1 H1) as Hp.
      destruct (match_prefixes cs (length (s_seq s)) dev u s1) as [s2 [[len r]|]]; destruct Hp as [Hp1 Hp2]; [apply (Hgo s2 len r true Hp1 Hp2)|apply (Hgo s2 _ RNo false Hp1 I)].
    + apply (Hgo s1 _ RNo false H1 I).
  - exact H1.
  - cbn [negb andb]. apply (Hgo s1 _ (RMatch r o inp ci) false H1 Hb).
Qed.

Lemma loop_inv : forall D fuel e dev s, oi D s -> oi D (apply_loop cs fuel e dev s).
Proof.
  intros D. induction fuel as [|f IH]; intros e dev s H; cbn [apply_loop];
    (destruct (has_non_optional (s_seq s)); [|exact H]); [exact H|].
  pose proof (round_inv D e dev s H) as H1. destruct (apply_round cs e dev s) as [s1 b].
  destruct b; [exact H1|apply IH; exact H1].
Qed.

(** * Contexts *)

Lemma on_context_inv : forall D e ci s, oi D s -> oi D (on_context_active_event cs e ci s).
Proof.
  intros D e ci s H. unfold on_context_active_event.
  destruct (nth_error cs ci) as [c|] eqn:Ec; [|exact H].
  set (s1 := ub_unless _ s). assert (H1 : oi D s1) by (unfold s1, ub_unless; destruct (forallb _ _); exact H).
  clearbody s1. destruct (find _ (cx_inputs c)) as [i|]; [|exact H1].
  assert (Hr : oi D (let '(s0, _) := continue_output_on_release e (Some ci) s1 in
                     release_triggered (ek e) (Some ci) s0)).
  { pose proof (continue_inv D e (Some ci) s1 H1) as Hc.
    destruct (continue_output_on_release e (Some ci) s1) as [s2 b]. apply release_inv. exact Hc. }
  destruct (es e); try exact Hr.
  destruct (find_output cs (s_active s1) ci c (in_out i)) as [r o| |] eqn:Ef; [|exact H1|exact H1].
  apply (apply_output_inv D (TEvent e) (Some ci) o s1 []); [exact H1| |constructor].
  eapply find_output_balanced; eauto.
Qed.

Lemma update_active_inv : forall D s, oi D s -> oi D (update_active_contexts cs s).
Proof.
  intros D s H. unfold update_active_contexts.
  destruct (eval_active cs (s_seq s) (s_client s) []) as [curr|]; [|exact H].
  assert (G : forall e l s, oi D s -> oi D (fold_left (fun s p => on_context_active_event cs e p s) l s)).
  { intros e. induction l as [|x l IH]; intros s' Hs; [exact Hs|]. cbn [fold_left].
    apply IH. apply on_context_inv. exact Hs. }
  apply G. apply G. exact H.
Qed.

Lemma clean_up_inv : forall D fuel s, oi D s -> oi D (clean_up_history cs fuel s).
Proof.
  intros D. induction fuel as [|f IH]; intros s H; cbn [clean_up_history];
    (destruct (s_hist s); [exact H|]); [exact H|].
  destruct (negb _); [exact H|]. destruct (history_might_match cs s); [exact H|].
  destruct (remove_first_ev _ _); [apply IH|]; exact H.
Qed.

Lemma process_inv : forall D e dev s, oi D s -> oi D (process_input cs e dev s).
Proof.
  intros D e dev s H. unfold process_input. cbn zeta.
  set (s1 := add_to_history cs e _).
  assert (H1 : oi D s1).
  { unfold s1, add_to_history. destruct (_ && _ && _); [|exact H].
    destruct (es e); match goal with |- context [if ?c then _ else _] => destruct c end; exact H. }
  clearbody s1. assert (H2 := update_active_inv D s1 H1).
  set (s2 := update_active_contexts cs s1) in *. clearbody s2.
  assert (H3 : oi D (prepare_up e s2)).
  { unfold prepare_up. destruct (kstate_eqb (es e) Up); [|exact H2].
    cbn zeta. set (s3 := match s_timeout s2 with Some _ => _ | None => _ end).
    assert (H3 : oi D s3).
    { unfold s3. destruct (s_timeout s2) as [c|]; [destruct (ct_output c)|]; exact H2. }
    clearbody s3. destruct (s_might s3); [exact H3|].
    destruct (find_key (s_seq s3) (ek e)) as [i|]; [|exact H3].
    destruct (nth_error (s_seq s3) i) as [x|]; [|exact H3].
    destruct (kstate_eqb (es x) DownMatched); exact H3. }
  set (s3 := prepare_up e s2) in *. clearbody s3.
  assert (H4 : oi D (unsuppress s3)).
  { destruct H3 as [[Hn Hh] Ho]. split; [|exact Ho]. split; cbn.
    - rewrite map_map. cbn. exact Hn.
    - intros k Hk Hd. destruct (Hh k Hk Hd) as [o [Hi Hx]].
      exists (OD (od_key o) (od_trigger o) false (od_temp o) (od_twice o) (od_ctx o)).
      split; [|exact Hx]. apply in_map_iff. exists o. auto. }
  set (s4 := unsuppress s3) in *. clearbody s4.
  assert (H5 := loop_inv D (weight (s_seq s4)) e dev s4 H4).
  set (s5 := apply_loop cs _ e dev s4) in *. clearbody s5.
  unfold finish_input. cbn zeta.
  assert (H6 : oi D (if kstate_eqb (es e) Up then release_triggered (ek e) None s5 else s5)).
  { destruct (kstate_eqb (es e) Up); [apply release_inv|]; exact H5. }
  set (s6 := if kstate_eqb (es e) Up then _ else _) in *. clearbody s6.
  assert (H7 := update_active_inv D s6 H6).
  set (s7 := update_active_contexts cs s6) in *. clearbody s7.
  apply clean_up_inv. destruct (s_seq _); exact H7.
Qed.

Lemma apply_input_inv : forall D e dev s, oi D s -> oi D (apply_input cs e dev s).
Proof.
  intros D e dev s H. unfold apply_input.
  pose proof (continue_inv D e None s H) as H1.
  destruct (continue_output_on_release e None s) as [s1 go1]. cbn [fst] in H1.
  destruct (negb go1); [exact H1|].
  assert (H2 : oi D (fst (suppress_not_timeout e s1))).
  { unfold suppress_not_timeout. destruct (s_timeout s1) as [c|]; [|exact H1].
    repeat match goal with |- context [if ?c then _ else _] => destruct c end; exact H1. }
  destruct (suppress_not_timeout e s1) as [s2 go2]. cbn [fst] in H2.
  destruct (negb go2); [exact H2|].
  assert (H3 : oi D (fst (merge_repeat e dev s2))).
  { unfold merge_repeat.
    destruct (es e); try (destruct (_ =? _)%Z; exact H2).
    destruct (rfind_key _ _);
      repeat match goal with |- context [if ?c then _ else _] => destruct c end; exact H2. }
  destruct (merge_repeat e dev s2) as [s3 go3]. cbn [fst] in H3.
  destruct (negb go3); [exact H3|]. apply process_inv. exact H3.
Qed.

Lemma oi_deliver : forall D s, oi D s -> oi (D ++ s_buf s) (set_buf [] s).
Proof.
  intros D s [[Hn Hh] Ho]. split; [|exact Ho]. split; [exact Hn|]. cbn. rewrite app_nil_r. exact Hh.
Qed.

Lemma do_call_oi : forall D c s, is_validate c = false -> oi D s ->
  oi (D ++ snd (do_call cs c s)) (fst (do_call cs c s)).
Proof.
  intros D [e dev|l|f] s Hv H; [| |discriminate].
  - cbn [do_call]. unfold update. cbn [fst snd]. apply oi_deliver. apply apply_input_inv. exact H.
  - cbn [do_call]. unfold set_active_client_contexts. cbn [fst snd]. apply oi_deliver.
    set (s1 := update_active_contexts cs (set_client l s)).
    assert (H1 : oi D s1) by (apply update_active_inv; exact H).
    destruct H1 as [Hi Ho]. split; [exact Hi|]. cbn.
    clear -Ho. induction (s_onrel s1) as [|o l0 IH]; [constructor|].
    inversion_clear Ho. cbn [filter]. destruct (is_context_active _ _ _); auto.
Qed.

Lemma run_oi : forall l D s, Forall (fun c => is_validate c = false) l -> oi D s ->
  oi (D ++ snd (run cs l s)) (fst (run cs l s)).
Proof.
  induction l as [|c l IH]; intros D s Hl H; [cbn; rewrite app_nil_r; exact H|].
  inversion_clear Hl. cbn [run]. pose proof (do_call_oi D c s H0 H) as H2.
  destruct (do_call cs c s) as [s1 o1]. cbn [fst snd] in H2.
  specialize (IH _ s1 H1 H2). destruct (run cs l s1) as [s2 o2]. cbn [fst snd] in *.
  rewrite app_assoc. exact IH.
Qed.

Lemma run_buf : forall l s, s_buf s = [] -> Forall (fun c => is_validate c = false) l ->
  s_buf (fst (run cs l s)) = [].
Proof.
  induction l as [|c l IH]; intros s H Hl; [exact H|]. inversion_clear Hl. cbn [run].
  assert (H2 : s_buf (fst (do_call cs c s)) = []) by (destruct c; [reflexivity|reflexivity|exact H]).
  destruct (do_call cs c s) as [s1 o1]. specialize (IH s1 H2 H1). destruct (run cs l s1). exact IH.
Qed.

Theorem held_covers_consumer : forall l k,
  Forall (fun c => is_validate c = false) l -> k <> k_timeout ->
  is_down_after (snd (run cs l init_state)) k = true -> held (fst (run cs l init_state)) k.
Proof.
  intros l k Hl Hk H.
  assert (H0 : oi [] init_state).
  { split; [split; [constructor|]|constructor]. cbn. discriminate. }
  destruct (run_oi l [] init_state Hl H0) as [[_ Hh] _]. apply Hh; [exact Hk|].
  rewrite (run_buf l init_state eq_refl Hl), app_nil_r. exact H.
Qed.

End WithContexts.
