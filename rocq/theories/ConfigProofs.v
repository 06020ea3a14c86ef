(** Proofs about what a list of contexts means. *)
From Coq Require Import List Arith NArith ZArith Bool Lia.
From Verif Require Import Base Key Text Match Stage ParseSeq Config ConfigShape ConfigSpec.
Import ListNotations.
Local Open Scope N_scope.

Lemma chain_chained : forall l, chain l -> chained l.
Proof.
  induction l as [|x l IH]; intros H i y E F; [now destruct i|]. destruct H as [A B].
  destruct i as [|i].
  - injection E as <-. specialize (A F). destruct l as [|z l]; [contradiction|]. now exists z.
  - exact (IH B i y E F).
Qed.
Lemma chained_chain : forall l, chained l -> chain l.
Proof.
  induction l as [|x l IH]; intros H; [exact I|]. split.
  - intros F. destruct (H 0%nat x eq_refl F) as [y [E Es]]. destruct l; [discriminate|].
    injection E as ->. exact Es.
  - apply IH. intros i y E F. exact (H (S i) y E F).
Qed.

Section Meaning.
Variable met : attrs -> bool.

(** The meaning in one pass. *)
Definition starts_stage (l : list cctx) : bool := match l with x :: _ => cc_stage x | [] => false end.
Definition add_front {A} (b : list A) (new : bool) (rest : list (list A)) : list (list A) :=
  if new then b :: rest else match rest with s :: ss => (b ++ s) :: ss | [] => [b] end.
Definition own (on : bool) (x : cctx) : list maps :=
  if negb (cc_fall x) && on && has_maps (maps_of x) then [maps_of x] else [].
Fixpoint go (on : bool) (l : list cctx) : list (list maps) :=
  match l with
  | [] => [[]]
  | x :: r => let on := on || applies met x in
              add_front (own on x) (starts_stage r) (go (cc_fall x && on) r)
  end.
Lemma go_ne : forall l on, go on l <> [].
Proof.
  intros [|x l] on; [discriminate|]. cbn [go]. unfold add_front. destruct (starts_stage l); [discriminate|].
  now destruct (go _ l).
Qed.
Lemma cut_ne : forall l, cut l <> [].
Proof.
  intros [|x [|y l]]; try discriminate. cbn [cut]. destruct (cc_stage y); [discriminate|].
  destruct (match l with [] => _ | _ => _ end); discriminate.
Qed.
Lemma active_step : forall on x r, active met on (x :: r) =
  own (on || applies met x) x ++ active met (cc_fall x && (on || applies met x)) r.
Proof.
  intros on x r. cbn [active]. unfold own. destruct (cc_fall x); cbn [negb andb app]; reflexivity.
Qed.
Lemma go_cut : forall l on, chain l ->
  go on l = match cut l with s :: ss => active met on s :: map (active met false) ss | [] => [] end.
Proof.
  induction l as [|x l IH]; intros on C; [reflexivity|]. destruct C as [A B].
  cbn [go]. destruct l as [|y l].
  - cbn [cut go starts_stage add_front]. rewrite active_step. cbn [active]. reflexivity.
  - change (cut (x :: y :: l)) with
      (if cc_stage y then [x] :: cut (y :: l)
       else match cut (y :: l) with s :: ss => (x :: s) :: ss | [] => [[x]] end).
    rewrite IH by exact B. cbn [starts_stage]. destruct (cut (y :: l)) as [|s ss] eqn:E; [now apply cut_ne in E|].
    destruct (cc_stage y) eqn:Es; cbn [add_front map].
    + rewrite active_step. cbn [active]. rewrite app_nil_r. f_equal. f_equal.
      destruct (cc_fall x) eqn:F; [|reflexivity]. specialize (A eq_refl). congruence.
    + rewrite active_step. reflexivity.
Qed.
Lemma meaning_go : forall l, chain l -> meaning met l = go false l.
Proof.
  intros l C. unfold meaning. rewrite go_cut by exact C. destruct (cut l) eqn:E; [now apply cut_ne in E|reflexivity].
Qed.

(** * optimize_contexts *)

(** Suffixes which can be exchanged. *)
Definition same (s t : list cctx) : Prop :=
  starts_stage s = starts_stage t /\ forall on, go on s = go on t.
Lemma same_app : forall p s t, same s t -> same (p ++ s) (p ++ t).
Proof.
  induction p as [|x p IH]; intros s t H; [exact H|]. destruct (IH s t H) as [A B].
  split; [reflexivity|]. intros on. cbn [app go]. now rewrite A, B.
Qed.

Definition off (x : cctx) : Prop :=
  cc_sys x = false \/ (has_maps (maps_of x) = false /\ cc_stage x = false).

Lemma has_maps_null : forall x, null (cc_inputs x) && null (cc_commands x) = negb (has_maps (maps_of x)).
Proof.
  intros x. unfold maps_of, mappings, has_maps. destruct (cc_inputs x), (cc_commands x); reflexivity.
Qed.

(** A context of another system before one of the same block. *)
Lemma drop_fall : forall x acc, cc_fall x = true -> cc_sys x = false -> cc_stage x = false ->
  starts_stage acc = false -> same (x :: acc) acc.
Proof.
  intros x acc F Hs St Sa. split; [cbn; congruence|]. intros on. cbn [go]. unfold own. rewrite F, Sa. cbn.
  unfold applies. rewrite Hs. cbn. rewrite orb_false_r. destruct (go on acc) eqn:E; [now apply go_ne in E|reflexivity].
Qed.
(** A removed context whose mappings the previous one of the block takes over. *)
Lemma fold_moved : forall x y acc, cc_fall x = true -> cc_fall y = false -> cc_stage y = false -> off y ->
  same (x :: y :: acc) (take_over (Some y) x :: acc).
Proof.
  intros x y acc F Fy Sy O. unfold take_over. rewrite F. split; [reflexivity|]. intros on.
  cbn [go starts_stage]. unfold own. cbn [cc_fall cc_set_fall cc_set_maps]. rewrite F, Fy, Sy. cbn [negb andb].
  change (applies met (cc_set_fall false (cc_set_maps (cc_inputs y) (cc_outputs y) (cc_commands y) x))) with (applies met x).
  change (maps_of (cc_set_fall false (cc_set_maps (cc_inputs y) (cc_outputs y) (cc_commands y) x))) with (maps_of y).
  set (o := on || applies met x). unfold add_front.
  assert (E : (o || applies met y) && has_maps (maps_of y) = o && has_maps (maps_of y)).
  { destruct O as [O|[O _]]; [|now rewrite O, !andb_false_r]. unfold applies. now rewrite O, orb_false_r. }
  rewrite E. destruct (starts_stage acc); [reflexivity|]. destruct (go false acc); reflexivity.
Qed.
(** A removed context which is alone in its block. *)
Lemma drop_single : forall x y acc, cc_fall x = false -> cc_fall y = false -> cc_stage y = false -> off y ->
  same (x :: y :: acc) (x :: acc).
Proof.
  intros x y acc F Fy Sy O. split; [reflexivity|]. intros on. cbn [go starts_stage]. rewrite F, Fy, Sy. cbn [andb].
  assert (E : own (false || applies met y) y = []).
  { unfold own. rewrite Fy. cbn [negb andb orb]. destruct O as [O|[O _]]; [unfold applies; now rewrite O|now rewrite O, andb_false_r]. }
  rewrite E. unfold add_front. destruct (starts_stage acc); [now rewrite app_nil_r|].
  destruct (go false acc) eqn:Eg; [now apply go_ne in Eg|]. reflexivity.
Qed.

Definition stage_sys (x : cctx) : Prop := cc_stage x = true -> cc_sys x = true.

Lemma chain_app_r : forall p s, chain (p ++ s) -> chain s.
Proof. induction p as [|x p IH]; intros s H; [exact H|]. apply IH, H. Qed.

Definition tl_of (moved : option cctx) (acc : list cctx) : list cctx :=
  match moved with Some y => y :: acc | None => acc end.

Lemma same_start : forall p s t, s <> [] -> t <> [] -> starts_stage s = starts_stage t ->
  chain (p ++ s) -> chain t -> chain (p ++ t).
Proof.
  induction p as [|x p IH]; intros s t Ns Nt E C Ct; [exact Ct|]. destruct C as [A B]. split; [|now apply (IH s)].
  intros F. specialize (A F). destruct p as [|y p]; [|exact A]. cbn [app] in *.
  destruct s; [easy|]. destruct t; [easy|]. cbn in E. congruence.
Qed.

Lemma optimize_loop_meaning : forall rl moved bc acc,
  chain (rev rl ++ tl_of moved acc) -> Forall stage_sys (rev rl ++ tl_of moved acc) ->
  (forall y, moved = Some y -> cc_fall y = false /\ (cc_sys y = false \/ has_maps (maps_of y) = false) /\
                               (rl <> [] -> off y)) ->
  (moved = None -> acc <> [] -> bc = true) -> rev rl ++ tl_of moved acc <> [] ->
  let r := optimize_loop rl moved bc acc in
  let m := go false (rev rl ++ tl_of moved acc) in
  m = go false r \/ (r <> [] /\ m = [] :: go false r).
Proof.
  induction rl as [|x rl IH]; intros moved bc acc C St Hm Hb Ne; cbv zeta.
  - cbn [rev app optimize_loop] in *. destruct moved as [y|]; [|now left]. cbn [tl_of].
    destruct (Hm y eq_refl) as [Fy [O _]].
    assert (Eo : own (false || applies met y) y = []).
    { unfold own. rewrite Fy. cbn [negb andb orb]. destruct O as [O|O]; [unfold applies; now rewrite O|now rewrite O, andb_false_r]. }
    cbn [go]. rewrite Eo, Fy. cbn [andb add_front]. unfold add_front.
    destruct (starts_stage acc) eqn:Ea.
    + right. split; [|reflexivity]. now destruct acc.
    + left. destruct (go false acc) eqn:Eg; [now apply go_ne in Eg|reflexivity].
  - cbn [rev] in C, St, Ne |- *. rewrite <- app_assoc in C, St, Ne |- *. cbn [app] in C, St, Ne |- *.
    cbn [optimize_loop]. cbv zeta.
    (* the suffix after [take_over] *)
    assert (Sm : same (x :: tl_of moved acc) (take_over moved x :: acc)).
    { destruct moved as [y|]; [|split; reflexivity]. cbn [tl_of].
      destruct (Hm y eq_refl) as [Fy [_ O]]. assert (Oy : off y) by (apply O; discriminate).
      assert (Sy : cc_stage y = false).
      { destruct Oy as [Oy|[_ Oy]]; [|exact Oy]. apply Forall_app in St. destruct St as [_ St].
        inversion_clear St as [|? ? _ St']. inversion_clear St' as [|? ? Hy _].
        destruct (cc_stage y) eqn:E; [|reflexivity]. specialize (Hy E). congruence. }
      destruct (cc_fall x) eqn:F; [now apply fold_moved|].
      unfold take_over. rewrite F. now apply drop_single. }
    destruct (same_app (rev rl) _ _ Sm) as [_ Sg]. rewrite Sg. clear Sg.
    assert (C' : chain (rev rl ++ take_over moved x :: acc)).
    { apply (same_start (rev rl) (x :: tl_of moved acc)); try discriminate; [exact (proj1 Sm)|exact C|].
      apply chain_app_r in C. destruct moved as [y|]; [|exact C]. cbn [tl_of] in C.
      destruct C as [C1 [C2 C3]]. split; [|exact C3].
      intros F. exfalso. unfold take_over in F. destruct (cc_fall x) eqn:Fx; [discriminate|congruence]. }
    assert (St' : Forall stage_sys (rev rl ++ take_over moved x :: acc)).
    { apply Forall_app in St. destruct St as [S1 S2]. apply Forall_app. split; [exact S1|].
      inversion_clear S2 as [|? ? Hx Hr]. constructor.
      - unfold stage_sys. rewrite take_over_stage, take_over_sys. exact Hx.
      - destruct moved; [now inversion_clear Hr|exact Hr]. }
    assert (Fm : cc_fall (take_over moved x) = true -> moved = None /\ acc <> [] /\ starts_stage acc = false).
    { intros F. split; [now apply take_over_fall in F|]. apply chain_app_r in C'. destruct C' as [C1 _].
      specialize (C1 F). destruct acc; [contradiction|]. split; [discriminate|exact C1]. }
    clear C St Sm. set (x' := take_over moved x) in *. clearbody x'. clear Ne.
    destruct (cc_fall x') eqn:F.
    + destruct (Fm eq_refl) as [Em [Na Sa]]. rewrite (Hb Em Na). cbn [negb]. rewrite orb_false_r.
      destruct (cc_sys x') eqn:Hs; cbn [negb].
      * apply (IH None true (x' :: acc)); try easy. now destruct (rev rl).
      * assert (Sx : cc_stage x' = false).
        { apply Forall_app in St'. destruct St' as [_ S2]. inversion_clear S2 as [|? ? Hx _].
          destruct (cc_stage x') eqn:E; [|reflexivity]. specialize (Hx E). congruence. }
        destruct (same_app (rev rl) _ _ (drop_fall x' acc F Hs Sx Sa)) as [_ Sg]. rewrite Sg.
        apply (IH None true acc); try easy.
        -- apply (same_start (rev rl) (x' :: acc)); try easy.
           ++ cbn. congruence.
           ++ apply chain_app_r in C'. exact (proj2 C').
        -- apply Forall_app in St'. destruct St' as [S1 S2]. apply Forall_app. split; [exact S1|]. now inversion_clear S2.
        -- cbn [tl_of]. destruct (rev rl); [exact Na|discriminate].
    + rewrite has_maps_null. destruct (negb (cc_sys x') || negb (has_maps (maps_of x')) && (null rl || negb (cc_stage x'))) eqn:R.
      * apply (IH (Some x') false acc); try easy.
        -- intros y Ey. injection Ey as <-. split; [exact F|].
           destruct (cc_sys x') eqn:Hs; cbn [negb orb] in R.
           ++ destruct (has_maps (maps_of x')) eqn:Hm'; [discriminate|]. cbn [negb andb] in R. split; [now right|].
              intros Nr. right. split; [exact Hm'|]. destruct rl; [easy|]. cbn in R. now destruct (cc_stage x').
           ++ split; [now left|]. intros _. now left.
        -- cbn [tl_of]. now destruct (rev rl).
      * apply (IH None true (x' :: acc)); try easy. cbn [tl_of]. now destruct (rev rl).
Qed.

Theorem optimize_meaning : forall l, chain l -> Forall stage_sys l -> l <> [] ->
  meaning met l = meaning met (optimize_contexts l) \/
  meaning met l = [] :: meaning met (optimize_contexts l).
Proof.
  intros l C St Ne. rewrite !meaning_go; [|now apply optimize_chain|exact C].
  unfold optimize_contexts.
  assert (H := optimize_loop_meaning (rev l) None false []). cbn [tl_of] in H.
  rewrite rev_involutive, app_nil_r in H. cbv zeta in H.
  destruct H as [H|[N H]]; try easy.
  - rewrite H. left. destruct (optimize_loop (rev l) None false []); reflexivity.
  - right. rewrite H. now destruct (optimize_loop (rev l) None false []).
Qed.
End Meaning.
