(** The client knows the window which is focused (C87). *)
From Coq Require Import String Ascii List Arith NArith ZArith Bool Lia.
From Verif Require Import Base Key Text KeyNames ParseSeq Stage Config Serial Client ClientSpec ClientProofs
  Focus FocusSpec.
Import ListNotations.
Local Open Scope N_scope.

(** ** Lookups *)

Lemma win_of_map g : (forall w, dn_id (g w) = dn_id w) -> forall l k,
  win_of k (map g l) = option_map g (win_of k l).
Proof.
  intros G l k. induction l as [|w r IH]; [reflexivity|]. cbn. rewrite G.
  destruct (dn_id w =? k); [reflexivity|exact IH].
Qed.
Lemma win_of_id l : forall k w, win_of k l = Some w -> dn_id w = k.
Proof.
  induction l as [|x r IH]; intros k w; cbn; [discriminate|].
  destruct (N.eqb_spec (dn_id x) k) as [E|E]; [intros [= ->]; exact E|apply IH].
Qed.
Lemma win_of_on id g : (forall w, dn_id (g w) = dn_id w) -> forall l k,
  win_of k (on_win id g l) = if k =? id then option_map g (win_of k l) else win_of k l.
Proof.
  intros G l k. unfold on_win. rewrite win_of_map; [|intro w; destruct (dn_id w =? id); [apply G|reflexivity]].
  destruct (win_of k l) as [w|] eqn:W; [|destruct (k =? id); reflexivity].
  cbn. rewrite (win_of_id _ _ _ W). destruct (k =? id); reflexivity.
Qed.
Lemma win_of_app l : forall k m, win_of k (l ++ m) = match win_of k l with Some w => Some w | None => win_of k m end.
Proof. induction l as [|x r IH]; intros k m; cbn; [reflexivity|]. destruct (dn_id x =? k); [reflexivity|apply IH]. Qed.
Lemma win_of_filter id l : forall k,
  win_of k (List.filter (fun w => negb (dn_id w =? id)) l) = if k =? id then None else win_of k l.
Proof.
  induction l as [|x r IH]; intro k; cbn; [destruct (k =? id); reflexivity|].
  destruct (N.eqb_spec (dn_id x) id) as [E|E]; cbn.
  - rewrite IH. destruct (N.eqb_spec k id) as [F|F]; [reflexivity|].
    destruct (N.eqb_spec (dn_id x) k) as [G|G]; [congruence|reflexivity].
  - rewrite IH. destruct (N.eqb_spec (dn_id x) k) as [G|G]; [|reflexivity].
    destruct (N.eqb_spec k id) as [F|F]; [congruence|reflexivity].
Qed.
Lemma win_of_in l : forall k w, win_of k l = Some w -> In w l.
Proof.
  induction l as [|x r IH]; intros k w; cbn; [discriminate|].
  destruct (dn_id x =? k); [intros [= ->]; left; reflexivity|right; eapply IH; eassumption].
Qed.
Lemma top_of_set h f l : forall k,
  top_of k (set_top h f l) = if k =? h then option_map f (top_of k l) else top_of k l.
Proof.
  intro k. unfold set_top. induction l as [|[i t] r IH]; cbn; [destruct (k =? h); reflexivity|].
  destruct (N.eqb_spec i h) as [E|E]; cbn; rewrite IH.
  - destruct (N.eqb_spec i k) as [F|F]; [|reflexivity].
    destruct (N.eqb_spec k h) as [G|G]; [reflexivity|congruence].
  - destruct (N.eqb_spec i k) as [F|F]; [|reflexivity].
    destruct (N.eqb_spec k h) as [G|G]; [congruence|reflexivity].
Qed.
Lemma top_of_app l : forall k m, top_of k (l ++ m) = match top_of k l with Some w => Some w | None => top_of k m end.
Proof. induction l as [|[i x] r IH]; intros k m; cbn; [reflexivity|]. destruct (i =? k); [reflexivity|apply IH]. Qed.
Lemma top_of_remove h l : forall k,
  top_of k (remove_top h l) = if k =? h then None else top_of k l.
Proof.
  unfold remove_top. induction l as [|[i t] r IH]; intro k; cbn; [destruct (k =? h); reflexivity|].
  destruct (N.eqb_spec i h) as [E|E]; cbn; rewrite IH.
  - destruct (N.eqb_spec k h) as [F|F]; [reflexivity|]. destruct (N.eqb_spec i k) as [G|G]; [congruence|reflexivity].
  - destruct (N.eqb_spec i k) as [G|G]; [|reflexivity]. destruct (N.eqb_spec k h) as [F|F]; [congruence|reflexivity].
Qed.

(** ** States *)

Lemma handle_state_proper l a b act : proper_states l b = true ->
  handle_state l a act = if b then Some a else act.
Proof.
  unfold proper_states. intro H. apply andb_true_iff in H. destruct H as [H1 H2].
  apply Bool.eqb_prop in H2. subst b. revert act H1.
  unfold handle_state. induction l as [|v r IH]; intros act H; [reflexivity|].
  cbn [forallb] in H. apply andb_true_iff in H. destruct H as [V R]. cbn [fold_left existsb].
  rewrite IH by exact R.
  assert (Q : negb (N.land v st_activated =? 0) = (st_activated =? v)).
  { apply orb_true_iff in V. destruct V as [V|V]; [apply orb_true_iff in V; destruct V as [V|V]|];
      apply N.eqb_eq in V; subst v; reflexivity. }
  rewrite Q. destruct (st_activated =? v); cbn [orb]; [|reflexivity].
  destruct (existsb (N.eqb st_activated) r); reflexivity.
Qed.

(** ** The invariant *)

(** The objects of windows have different addresses. *)
Definition distinct (l : list dwin) : Prop :=
  forall h k x y, win_of h l = Some x -> win_of k l = Some y ->
    dn_known x = true -> dn_known y = true -> dn_address x = dn_address y -> h = k.
Definition keeps (g : dwin -> dwin) : Prop :=
  forall w, dn_id (g w) = dn_id w /\ dn_known (g w) = dn_known w /\ dn_address (g w) = dn_address w.
Lemma distinct_map g l : keeps g -> distinct l -> distinct (map g l).
Proof.
  intros G D h k x y. rewrite !win_of_map by (intro w; apply (G w)).
  destruct (win_of h l) as [x'|] eqn:X; [|discriminate]. destruct (win_of k l) as [y'|] eqn:Y; [|discriminate].
  cbn. intros [= <-] [= <-]. destruct (G x') as [_ [-> ->]]. destruct (G y') as [_ [-> ->]]. exact (D h k x' y' X Y).
Qed.
Lemma distinct_on id g l : keeps g -> distinct l -> distinct (on_win id g l).
Proof.
  intros G D. apply distinct_map; [|exact D]. intro w. destruct (dn_id w =? id); [apply G|auto].
Qed.

Record Inv (dk : desk) (w : wlr) (d : window) : Prop := mkInv {
  i_tops : forall h,
    match win_of h (dk_windows dk) with
    | Some x =>
        if dn_known x then
          exists o, top_of h (wl_tops w) = Some o /\ tl_address o = dn_address x /\
            (dn_title_due x = false -> tl_title o = dn_title x) /\
            (dn_app_due x = false -> tl_app o = dn_app x)
        else top_of h (wl_tops w) = None
    | None => top_of h (wl_tops w) = None
    end;
  i_distinct : distinct (dk_windows dk);
  i_focus : forall f, dk_focus dk = Some f -> exists x, win_of f (dk_windows dk) = Some x /\
    (dn_known x = true -> dn_state_due x = false ->
      wl_active w = Some (dn_address x) /\
      (dn_done_due x = false -> forall o, top_of f (wl_tops w) = Some o ->
        w_title d = tl_title o /\ w_class d = tl_app o));
  i_path : w_path d = []
}.

Lemma desk_step_inv a dk es dk' w d :
  desk_do a dk = Some (es, dk') -> Inv dk w d ->
  Inv dk' (fst (wlr_events es (w, d))) (snd (wlr_events es (w, d))).
Proof.
  intros D V. pose proof V as [VT VD VF VP].
  destruct a as [id t ap|id|id t|id t|o|id ad|id|id|id l|id]; cbn [desk_do] in D.
  - (* open *)
    destruct (win_of id (dk_windows dk)) as [x|] eqn:W; [discriminate|]. injection D as <- <-.
    cbn. constructor; cbn [dk_windows dk_focus].
    + intro h. rewrite win_of_app. specialize (VT h). cbn [win_of dn_id].
      destruct (win_of h (dk_windows dk)); [exact VT|].
      destruct (id =? h); cbn [dn_known]; exact VT.
    + intros h k x y. rewrite !win_of_app. cbn [win_of dn_id].
      destruct (win_of h (dk_windows dk)) as [x'|] eqn:H1; destruct (win_of k (dk_windows dk)) as [y'|] eqn:H2.
      * intros [= <-] [= <-]. exact (VD h k x' y' H1 H2).
      * destruct (id =? k); [|discriminate]. intros _ [= <-] _. discriminate.
      * destruct (id =? h); [|discriminate]. intros [= <-] _. discriminate.
      * destruct (id =? h); [|discriminate]. intros [= <-] _. discriminate.
    + intros f F. destruct (VF f F) as [x [X R]]. exists x. rewrite win_of_app, X. auto.
    + exact VP.
  - (* close *)
    destruct (win_of id (dk_windows dk)) as [x|] eqn:W; [|discriminate]. injection D as <- <-.
    assert (TO : forall h, top_of h (wl_tops (fst (wlr_events (if dn_known x then [WClosed id] else []) (w, d))))
                 = if h =? id then None else top_of h (wl_tops w)).
    { intro h. destruct (dn_known x) eqn:K; cbn.
      - apply top_of_remove.
      - destruct (N.eqb_spec h id) as [->|]; [|reflexivity]. specialize (VT id). rewrite W, K in VT. exact VT. }
    assert (AC : wl_active (fst (wlr_events (if dn_known x then [WClosed id] else []) (w, d))) = wl_active w)
      by (destruct (dn_known x); reflexivity).
    assert (DA : snd (wlr_events (if dn_known x then [WClosed id] else []) (w, d)) = d)
      by (destruct (dn_known x); reflexivity).
    rewrite DA. constructor; cbn [dk_windows dk_focus].
    + intro h. rewrite win_of_filter, TO. specialize (VT h). destruct (h =? id); [reflexivity|exact VT].
    + intros h k a b. rewrite !win_of_filter.
      destruct (h =? id); [discriminate|]. destruct (k =? id); [discriminate|]. apply VD.
    + intros f F. unfold has_focus in F. destruct (dk_focus dk) as [g|] eqn:G; [|discriminate].
      destruct (N.eqb_spec g id) as [E|E]; [discriminate|]. injection F as <-.
      destruct (VF g eq_refl) as [y [Y R]]. exists y. rewrite win_of_filter.
      destruct (N.eqb_spec g id) as [E'|E']; [contradiction|]. split; [exact Y|].
      rewrite AC. intros K1 K2. destruct (R K1 K2) as [R1 R2]. split; [exact R1|].
      intros K3 o. rewrite TO. destruct (N.eqb_spec g id); [contradiction|]. exact (R2 K3 o).
    + exact VP.
  - (* title *)
    destruct (win_of id (dk_windows dk)) as [x|] eqn:W; [|discriminate]. injection D as <- <-.
    cbn. constructor; cbn [dk_windows dk_focus].
    + intro h. rewrite win_of_on by reflexivity. specialize (VT h). destruct (N.eqb_spec h id) as [->|]; [|exact VT].
      rewrite W in *. cbn. destruct (dn_known x); [|exact VT].
      destruct VT as [o [O1 [O2 [O3 O4]]]]. exists o. repeat split; try assumption. discriminate.
    + apply distinct_on; [|exact VD]. intro z. auto.
    + intros f F. destruct (VF f F) as [y [Y R]]. rewrite win_of_on by reflexivity.
      destruct (f =? id); [|eauto]. rewrite Y. cbn. eexists. split; [reflexivity|]. exact R.
    + exact VP.
  - (* app *)
    destruct (win_of id (dk_windows dk)) as [x|] eqn:W; [|discriminate]. injection D as <- <-.
    cbn. constructor; cbn [dk_windows dk_focus].
    + intro h. rewrite win_of_on by reflexivity. specialize (VT h). destruct (N.eqb_spec h id) as [->|]; [|exact VT].
      rewrite W in *. cbn. destruct (dn_known x); [|exact VT].
      destruct VT as [o [O1 [O2 [O3 O4]]]]. exists o. repeat split; try assumption. discriminate.
    + apply distinct_on; [|exact VD]. intro z. auto.
    + intros f F. destruct (VF f F) as [y [Y R]]. rewrite win_of_on by reflexivity.
      destruct (f =? id); [|eauto]. rewrite Y. cbn. eexists. split; [reflexivity|]. exact R.
    + exact VP.
  - (* focus *)
    destruct (match o with Some id => _ | None => true end) eqn:O in D; [|discriminate]. injection D as <- <-.
    cbn [wlr_events fold_left fst snd].
    set (g := fun w0 : dwin => if _ || _ then _ else w0).
    assert (G : keeps g) by (intro z; unfold g; destruct (_ || _); auto).
    constructor; cbn [dk_windows dk_focus].
    + intro h. rewrite win_of_map by (intro z; apply (G z)). specialize (VT h).
      destruct (win_of h (dk_windows dk)) as [x|]; [|exact VT]. cbn [option_map].
      unfold g. destruct (_ || _); exact VT.
    + apply distinct_map; assumption.
    + intros f F. subst o. destruct (win_of f (dk_windows dk)) as [x|] eqn:X; [|discriminate].
      rewrite win_of_map by (intro z; apply (G z)). rewrite X. cbn [option_map]. eexists. split; [reflexivity|].
      unfold g. rewrite (win_of_id _ _ _ X), N.eqb_refl, orb_true_r. cbn. discriminate.
    + exact VP.
  - (* window *)
    destruct (win_of id (dk_windows dk)) as [x|] eqn:W; [|discriminate].
    destruct (dn_known x) eqn:K; [discriminate|]. cbn [orb] in D.
    destruct (live_address ad (dk_windows dk)) eqn:LA; [discriminate|]. injection D as <- <-.
    assert (FR : forall h y, win_of h (dk_windows dk) = Some y -> dn_known y = true -> dn_address y <> ad).
    { intros h y Y KY E. enough (live_address ad (dk_windows dk) = true) by congruence.
      apply existsb_exists. exists y. split; [eapply win_of_in; eassumption|].
      rewrite KY, E, N.eqb_refl. reflexivity. }
    cbn. constructor; cbn [dk_windows dk_focus wl_tops wl_active].
    + intro h. rewrite win_of_on by reflexivity. rewrite top_of_app. specialize (VT h). cbn [top_of].
      destruct (N.eqb_spec h id) as [->|NE].
      * rewrite W in *. rewrite K in VT. cbn. rewrite VT, N.eqb_refl. eexists. split; [reflexivity|].
        cbn. split; [reflexivity|]. split; discriminate.
      * destruct (N.eqb_spec id h) as [|_]; [congruence|].
        destruct (win_of h (dk_windows dk)) as [y|].
        -- destruct (dn_known y); [|rewrite VT; reflexivity].
           destruct VT as [o' [O1 O2]]. exists o'. rewrite O1. auto.
        -- rewrite VT. reflexivity.
    + intros h k a b. rewrite !win_of_on by reflexivity.
      destruct (N.eqb_spec h id) as [->|NH]; destruct (N.eqb_spec k id) as [->|NK].
      * auto.
      * rewrite W. cbn. intros [= <-] B _ KB. cbn. intro E. exfalso. symmetry in E. exact (FR k b B KB E).
      * rewrite W. cbn. intros A [= <-] KA _. cbn. intro E. exfalso. exact (FR h a A KA E).
      * apply VD.
    + intros f F. destruct (VF f F) as [y [Y R]]. rewrite win_of_on by reflexivity.
      destruct (N.eqb_spec f id) as [->|NE].
      * rewrite W. cbn. eexists. split; [reflexivity|]. cbn. discriminate.
      * exists y. split; [exact Y|]. intros K1 K2. destruct (R K1 K2) as [R1 R2]. split; [exact R1|].
        intros K3 o'. rewrite top_of_app. cbn [top_of]. destruct (N.eqb_spec id f) as [|_]; [congruence|].
        intro TO. apply (R2 K3). destruct (top_of f (wl_tops w)); [exact TO|discriminate].
    + exact VP.
  - (* send title *)
    destruct (win_of id (dk_windows dk)) as [x|] eqn:W; [|discriminate].
    destruct (dn_known x) eqn:K; [|discriminate]. injection D as <- <-.
    cbn. constructor; cbn [dk_windows dk_focus wl_tops wl_active].
    + intro h. rewrite win_of_on by reflexivity. rewrite top_of_set. specialize (VT h).
      destruct (N.eqb_spec h id) as [->|NE]; [|exact VT]. rewrite W in *. cbn. rewrite K in *.
      destruct VT as [o [O1 [O2 [O3 O4]]]]. rewrite O1. cbn. eexists. split; [reflexivity|]. cbn. auto.
    + apply distinct_on; [|exact VD]. intro z. auto.
    + intros f F. destruct (VF f F) as [y [Y R]]. rewrite win_of_on by reflexivity. 
      destruct (N.eqb_spec f id) as [->|NE].
      * rewrite Y. cbn. eexists. split; [reflexivity|]. cbn. intros K1 K2.
        destruct (R K1 K2) as [R1 _]. split; [exact R1|discriminate].
      * exists y. split; [exact Y|]. intros K1 K2. destruct (R K1 K2) as [R1 R2]. split; [exact R1|].
        intros K3 o. rewrite top_of_set. destruct (N.eqb_spec f id); [contradiction|]. exact (R2 K3 o).
    + exact VP.
  - (* send app *)
    destruct (win_of id (dk_windows dk)) as [x|] eqn:W; [|discriminate].
    destruct (dn_known x) eqn:K; [|discriminate]. injection D as <- <-.
    cbn. constructor; cbn [dk_windows dk_focus wl_tops wl_active].
    + intro h. rewrite win_of_on by reflexivity. rewrite top_of_set. specialize (VT h).
      destruct (N.eqb_spec h id) as [->|NE]; [|exact VT]. rewrite W in *. cbn. rewrite K in *.
      destruct VT as [o [O1 [O2 [O3 O4]]]]. rewrite O1. cbn. eexists. split; [reflexivity|]. cbn. auto.
    + apply distinct_on; [|exact VD]. intro z. auto.
    + intros f F. destruct (VF f F) as [y [Y R]]. rewrite win_of_on by reflexivity.
      destruct (N.eqb_spec f id) as [->|NE].
      * rewrite Y. cbn. eexists. split; [reflexivity|]. cbn. intros K1 K2.
        destruct (R K1 K2) as [R1 _]. split; [exact R1|discriminate].
      * exists y. split; [exact Y|]. intros K1 K2. destruct (R K1 K2) as [R1 R2]. split; [exact R1|].
        intros K3 o. rewrite top_of_set. destruct (N.eqb_spec f id); [contradiction|]. exact (R2 K3 o).
    + exact VP.
  - (* send state *)
    destruct (win_of id (dk_windows dk)) as [x|] eqn:W; [|discriminate].
    destruct (dn_known x) eqn:K; [|discriminate]. cbn [andb] in D.
    destruct (proper_states l (has_focus dk id)) eqn:PS; [|discriminate]. injection D as <- <-.
    pose proof (VT id) as VI. rewrite W, K in VI. destruct VI as [o [O1 [O2 [O3 O4]]]].
    cbn [wlr_events fold_left wlr_event]. rewrite O1. cbn [fst snd].
    rewrite (handle_state_proper _ _ _ _ PS).
    constructor; cbn [dk_windows dk_focus wl_tops wl_active].
    + intro h. rewrite win_of_on by reflexivity. specialize (VT h).
      destruct (N.eqb_spec h id) as [->|NE]; [|exact VT]. rewrite W in *. cbn. rewrite K in *. exact VT.
    + apply distinct_on; [|exact VD]. intro z. auto.
    + intros f F. destruct (VF f F) as [y [Y R]]. rewrite win_of_on by reflexivity. unfold has_focus. rewrite F.
      destruct (N.eqb_spec f id) as [->|NE].
      * rewrite Y. cbn. eexists. split; [reflexivity|]. cbn. intros _ _. split; [|discriminate].
        rewrite W in Y. injection Y as <-. rewrite O2. reflexivity.
      * exists y. split; [exact Y|exact R].
    + exact VP.
  - (* send done *)
    destruct (win_of id (dk_windows dk)) as [x|] eqn:W; [|discriminate].
    destruct (dn_known x) eqn:K; [|discriminate]. injection D as <- <-.
    pose proof (VT id) as VI. rewrite W, K in VI. destruct VI as [o [O1 [O2 [O3 O4]]]].
    cbn [wlr_events fold_left wlr_event]. rewrite O1.
    set (act := match wl_active w with Some a => a =? tl_address o | None => false end).
    assert (RES : exists w' d', (if act && negb (text_eqb (w_title d) (tl_title o) && text_eqb (w_class d) (tl_app o))
              then (Wlr (wl_active w) (wl_tops w) true, Win (tl_app o) (tl_title o) []) else (w, d)) = (w', d') /\
              wl_tops w' = wl_tops w /\ wl_active w' = wl_active w /\
              d' = if act then Win (tl_app o) (tl_title o) [] else d).
    { destruct act; cbn [andb]; [|eauto 6].
      destruct (text_eqb (w_title d) (tl_title o)) eqn:E1; cbn [andb negb]; [|eauto 6].
      destruct (text_eqb (w_class d) (tl_app o)) eqn:E2; cbn [andb negb]; [|eauto 6].
      exists w, d. repeat split. apply text_eqb_eq in E1, E2.
      destruct d as [c t p]. cbn in *. congruence. }
    destruct RES as [w' [d' [-> [WT [WA WD]]]]]. cbn [fst snd].
    constructor; cbn [dk_windows dk_focus].
    + intro h. rewrite win_of_on by reflexivity. rewrite WT. specialize (VT h).
      destruct (N.eqb_spec h id) as [->|NE]; [|exact VT]. rewrite W in *. cbn. rewrite K in *. exact VT.
    + apply distinct_on; [|exact VD]. intro z. auto.
    + intros f F. destruct (VF f F) as [y [Y R]]. rewrite win_of_on by reflexivity. rewrite WT, WA.
      destruct (N.eqb_spec f id) as [->|NE].
      * rewrite Y. cbn. eexists. split; [reflexivity|]. cbn. intros K1 K2.
        destruct (R K1 K2) as [R1 _]. split; [exact R1|]. intros _ o' O'.
        rewrite O1 in O'. injection O' as <-. rewrite W in Y. injection Y as <-.
        unfold act in WD. rewrite R1, O2, N.eqb_refl in WD. subst d'. auto.
      * exists y. split; [exact Y|]. intros K1 K2. destruct (R K1 K2) as [R1 R2]. split; [exact R1|].
        intros K3 o' O'. unfold act in WD. rewrite R1 in WD.
        destruct (N.eqb_spec (dn_address y) (tl_address o)) as [E|E].
        -- exfalso. apply NE. apply (VD f id y x Y W K1 K). congruence.
        -- subst d'. exact (R2 K3 o' O').
    + rewrite WD. destruct act; [reflexivity|exact VP].
Qed.
