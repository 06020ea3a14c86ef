(** A release takes part in a match only if the press of the key does. *)
From Coq Require Import List Arith NArith ZArith Bool Lia.
From Verif Require Import Base Key Match Stage StageSpec StuckSpec.
Import ListNotations.
Local Open Scope N_scope.

Definition is_press (e : event) : Prop := es e = Down \/ es e = DownMatched.
Definition pressed_in (k : key) (l : sequence) : Prop :=
  exists x, In x l /\ ek x = k /\ is_press x.
Definition follows (l : sequence) : Prop :=
  forall a x b, l = a ++ x :: b -> es x = Up -> ek x <> k_timeout -> pressed_in (ek x) a.

Lemma pressed_app_l : forall k a b, pressed_in k a -> pressed_in k (a ++ b).
Proof. intros k a b [x [H1 H2]]. exists x. split; [apply in_or_app; auto|auto]. Qed.

Lemma follows_snoc : forall l e, follows l ->
  (es e = Up -> ek e <> k_timeout -> pressed_in (ek e) l) -> follows (l ++ [e]).
Proof.
  intros l e H He a x b Hs Hx Hk.
  destruct b as [|y b] using rev_ind.
  - apply app_inj_tail in Hs. destruct Hs as [<- <-]. auto.
  - clear IHb. rewrite app_comm_cons, app_assoc in Hs.
    apply app_inj_tail in Hs. destruct Hs as [-> _]. eapply H; eauto.
Qed.

Lemma unif_key_same : forall a b, a <> k_any -> b <> k_any -> unif_key a b = true -> a = b.
Proof.
  intros a b Ha Hb H. unfold unif_key in H.
  destruct ((a =? k_none) || (b =? k_none)); [discriminate|].
  destruct (N.eqb_spec a b); [assumption|].
  destruct ((a =? k_timeout) || (b =? k_timeout)); [discriminate|].
  destruct (N.eqb_spec a k_any); [contradiction|].
  destruct (N.eqb_spec b k_any); [contradiction|]. discriminate.
Qed.

Lemma unif_event_same : forall a b, ek a <> k_any -> ek b <> k_any -> unif_event a b = true ->
  ek a = ek b /\ (ek a = k_timeout \/ norm_state (es a) = norm_state (es b)).
Proof.
  intros a b Ha Hb H. unfold unif_event in H.
  destruct (N.eqb_spec (ek a) k_any); [contradiction|].
  destruct (N.eqb_spec (ek b) k_any); [contradiction|]. cbn [andb] in H.
  destruct (unif_key (ek a) (ek b)) eqn:E; [|discriminate]. cbn [negb] in H.
  split; [apply unif_key_same; auto|].
  destruct (N.eqb_spec (ek a) k_timeout); [auto|]. right.
  unfold unif_state in H. destruct (norm_state (es a)), (norm_state (es b)); auto; discriminate.
Qed.

Lemma find_index_In : forall A (f : A -> bool) l i, find_index f l = Some i ->
  exists x, nth_error l i = Some x /\ In x l /\ f x = true.
Proof.
  induction l as [|y l IH]; intros i H; [discriminate|]. cbn in H.
  destruct (f y) eqn:E.
  - injection H as <-. exists y. cbn. auto.
  - destruct (find_index f l) as [j|] eqn:Ej; [|discriminate]. injection H as <-.
    destruct (IH j eq_refl) as [x [H1 [H2 H3]]]. exists x. cbn. auto.
Qed.

Lemma In_update_at : forall A (g : A -> A) i l x, In x (update_at i g l) ->
  In x l \/ exists y, nth_error l i = Some y /\ x = g y.
Proof.
  intros A g i l. revert i. induction l as [|y l IH]; intros i x H; destruct i; cbn in H; try tauto.
  - destruct H as [<-|H]; [right; exists y; auto|left; right; auto].
  - destruct H as [<-|H]; [left; left; auto|]. destruct (IH _ _ H) as [H1|H1]; [left; right; auto|].
    right. exact H1.
Qed.

Lemma In_remove_at : forall A i (l : list A) x, In x (remove_at i l) -> In x l.
Proof.
  intros A i l. revert i. induction l as [|y l IH]; intros i x H; destruct i; cbn in H; try tauto.
  - right; auto.
  - destruct H as [<-|H]; [left; auto|right; eauto].
Qed.

Lemma async_pair_In : forall k l p, unmatched_async_pair k p l = true ->
  (exists x, In x l /\ es x = UpAsync /\ ek x = k) \/ (exists x, p = Some x /\ es x = UpAsync /\ ek x = k).
Proof.
  induction l as [|y l IH]; intros p H; [discriminate|]. cbn in H.
  destruct (event_eqb y (ev0 k DownAsync)).
  - destruct p as [q|]; [|discriminate]. right. exists q.
    unfold event_eqb in H. apply andb_prop in H. destruct H as [H _]. apply andb_prop in H.
    destruct H as [H1 H2]. apply N.eqb_eq in H1. destruct (es q); try discriminate. auto.
  - destruct (IH _ H) as [[x [H1 H2]]|[x [H1 H2]]].
    + left. exists x. split; [right; auto|auto].
    + injection H1 as <-. left. exists y. split; [left; auto|auto].
Qed.

(** What holds during matching: [p] the keys pressed in the part of the expression
    which was consumed, [d] the consumed part of the sequence. *)
Record minv (p : list key) (d : sequence) (m : mstate) : Prop := {
  mi_pressed : forall k, In k p -> k <> k_timeout -> pressed_in k d;
  mi_up : forall x, In x (ms_async m) -> es x = UpAsync -> In (ek x) p \/ ek x = k_timeout;
  mi_down : forall x, In x (ms_async m) -> norm_state (es x) = Down -> ek x <> k_timeout ->
            pressed_in (ek x) d;
  mi_any : forall x, In x (ms_async m) -> ek x <> k_any;
  mi_nmm : ms_nmm m = false;
  mi_follows : follows d
}.

Definition enter (ee : event) (p : list key) : list key :=
  match es ee with Down => ek ee :: p | _ => p end.
Definition releases_ok (p : list key) (ee : event) : Prop :=
  match es ee with
  | Up | UpAsync | UpMatched => In (ek ee) p \/ ek ee = k_timeout
  | _ => True
  end.
(** The states of the events of m_sequence. *)
Definition seq_state (e : event) : Prop :=
  es e = Down \/ es e = Up \/ es e = DownMatched \/ es e = UpMatched.

Lemma kstate_eqb_eq : forall a b, kstate_eqb a b = true <-> a = b.
Proof. intros [] []; cbn; split; intro; try reflexivity; try discriminate. Qed.

Lemma event_eqb_eq' : forall a b, event_eqb a b = true -> a = b.
Proof.
  intros [a1 a2 a3] [b1 b2 b3] H. unfold event_eqb in H. cbn in H.
  apply andb_prop in H. destruct H as [H H3]. apply andb_prop in H. destruct H as [H1 H2].
  apply N.eqb_eq in H1, H3. apply kstate_eqb_eq in H2. congruence.
Qed.

Lemma unif_none_l : forall k, unif_key k_none k = false.
Proof. reflexivity. Qed.
Lemma unif_none_r : forall k, unif_key k k_none = false.
Proof. intros k. unfold unif_key. rewrite orb_true_r. reflexivity. Qed.
Lemma unif_event_none_l : forall x, unif_event matches_none x = false.
Proof. intros x. unfold unif_event. cbn [ek matches_none]. rewrite unif_none_l, andb_false_l.
  destruct (_ && _); reflexivity. Qed.
Lemma unif_event_none_r : forall x, unif_event x matches_none = false.
Proof. intros x. unfold unif_event. cbn [ek es matches_none]. rewrite unif_none_r.
  destruct (_ && _); [reflexivity|]. destruct (_ && _); reflexivity. Qed.

Ltac bool_hyp H := rewrite ?andb_true_iff, ?orb_true_iff, ?negb_true_iff, ?kstate_eqb_eq,
  ?N.eqb_eq in H.

Lemma step_go : forall p d ee se at_end m ae as_ m',
  minv p d m -> ek ee <> k_any -> es ee <> NoMightMatch ->
  ee = matches_none \/ releases_ok p ee ->
  ek se <> k_any -> seq_state se -> (at_end = true -> se = matches_none) ->
  match_step ee se at_end m = MGo ae as_ m' ->
  (as_ = true -> at_end = false) /\
  minv (if ae then enter ee p else p) (if as_ then d ++ [se] else d) m'.
Proof.
  intros p d ee se at_end m ae as_ m' M Hany Hn Hr Hsa Hs Hend H.
  assert (PC : forall x q, pressed_in x d -> pressed_in x (d ++ q)) by (intros; apply pressed_app_l; auto).
  assert (PS : is_press se -> pressed_in (ek se) (d ++ [se])).
  { intros Hp. exists se. split; [apply in_or_app; right; left; reflexivity|auto]. }
  destruct M as [M1 M2 M3 M4 M5 M6].
  assert (EI : forall k q, In k q -> In k (enter ee q)).
  { intros k q Hk. unfold enter. destruct (es ee); auto. right; auto. }
  assert (EC : forall k q, In k (enter ee q) -> In k q \/ (es ee = Down /\ k = ek ee)).
  { intros k q Hk. unfold enter in Hk. destruct (es ee); auto. destruct Hk as [<-|Hk]; auto. }
  unfold match_step in H. cbn [ms_async ms_not ms_ign ms_any ms_nmm ms_e ms_down] in H.
  destruct (_ && mem_key (ek se) _); [discriminate|].
  (* DownAsync, UpAsync *)
  destruct (kstate_eqb (es ee) DownAsync || kstate_eqb (es ee) UpAsync) eqn:E1.
  { injection H as <- <- <-. split; [discriminate|]. bool_hyp E1.
    assert (E : enter ee p = p) by (unfold enter; destruct E1 as [->| ->]; reflexivity).
    rewrite E. constructor; cbn [ms_async ms_nmm]; auto.
    - intros x Hx Hu. apply in_app_or in Hx. destruct Hx as [Hx|[<-|[]]]; [auto|].
      destruct Hr as [->|Hr]; [discriminate|]. unfold releases_ok in Hr. rewrite Hu in Hr. exact Hr.
    - intros x Hx Hd Ht. apply in_app_or in Hx. destruct Hx as [Hx|[<-|[]]]; [auto|].
      destruct E1 as [E1|E1]; rewrite E1 in Hd; discriminate.
    - intros x Hx. apply in_app_or in Hx. destruct Hx as [Hx|[<-|[]]]; auto. }
  (* Not *)
  destruct (kstate_eqb (es ee) Not && negb (ek ee =? k_timeout)) eqn:E2.
  { injection H as <- <- <-. split; [discriminate|]. bool_hyp E2.
    assert (E : enter ee p = p) by (unfold enter; destruct E2 as [-> _]; reflexivity).
    rewrite E. constructor; cbn [ms_async ms_nmm]; auto. }
  destruct (N.eqb_spec (ek ee) k_any) as [?|_]; [contradiction|]. cbn [andb] in H.
  (* unifiable *)
  destruct (unif_event se ee) eqn:E3.
  { injection H as <- <- <-.
    assert (Ee : ee <> matches_none) by (intros ->; rewrite unif_event_none_r in E3; discriminate).
    split.
    { intros _. destruct at_end; [|reflexivity]. rewrite (Hend eq_refl), unif_event_none_l in E3. discriminate. }
    destruct Hr as [?|Hr]; [contradiction|].
    apply unif_event_same in E3; [|auto|auto]. destruct E3 as [Ek En].
    constructor; cbn [ms_async ms_nmm].
    - intros k Hk Ht. apply EC in Hk. destruct Hk as [Hk|[Ees ->]]; [apply PC; auto|].
      destruct En as [En|En]; [congruence|]. rewrite <- Ek. apply PS.
      unfold is_press. rewrite Ees in En. cbn in En. destruct (es se); try discriminate; auto.
    - intros x Hx Hu. apply filter_In in Hx. destruct Hx as [Hx _].
      destruct (M2 x Hx Hu); auto.
    - intros x Hx Hd Ht. apply filter_In in Hx. destruct Hx as [Hx _]. apply PC. auto.
    - intros x Hx. apply filter_In in Hx. destruct Hx as [Hx _]. auto.
    - auto.
    - apply follows_snoc; [auto|]. intros Hu Ht. destruct En as [En|En]; [congruence|].
      rewrite Hu in En. cbn in En. unfold releases_ok in Hr. rewrite Ek in *.
      destruct (es ee); try discriminate; destruct Hr as [Hr|Hr]; try contradiction; auto. }
  destruct (_ && event_eqb se matches_none); [discriminate|].
  destruct (kstate_eqb (es ee) NoMightMatch) eqn:E4; [bool_hyp E4; contradiction|].
  rewrite M5 in H. cbn [andb] in H.
  (* async *)
  destruct (find_index _ (ms_async m)) as [i|] eqn:E5.
  { injection H as <- <- <-. destruct (find_index_In _ _ _ _ E5) as [y [Hy1 [Hy2 Hy3]]].
    bool_hyp Hy3. destruct Hy3 as [Hy3 Hy4].
    split.
    { intros _. destruct at_end; [|reflexivity]. rewrite (Hend eq_refl) in Hy4. discriminate. }
    apply unif_key_same in Hy4; [|auto|auto].
    constructor; cbn [ms_async ms_nmm]; auto.
    - intros x Hx Hu. apply In_update_at in Hx. destruct Hx as [Hx|[y' [Hy' ->]]]; [auto|].
      cbn in Hu. unfold seq_state in Hs. rewrite Hu in Hs. intuition discriminate.
    - intros x Hx Hd Ht. apply In_update_at in Hx. destruct Hx as [Hx|[y' [Hy' ->]]]; [apply PC; auto|].
      assert (y' = y) by congruence. subst y'. cbn [ek es set_es] in *. rewrite <- Hy4. apply PS.
      unfold is_press. destruct (es se); try discriminate; auto.
    - intros x Hx. apply In_update_at in Hx. destruct Hx as [Hx|[y' [Hy' ->]]]; [auto|].
      cbn [ek set_es]. apply M4. eapply nth_error_In; eauto.
    - apply follows_snoc; [auto|]. intros Hu Ht. rewrite Hu in Hy3.
      rewrite Hy4 in *. destruct (M2 y Hy2 Hy3) as [Hp|Hp]; [auto|contradiction]. }
  (* matched before *)
  destruct (kstate_eqb (es se) DownMatched || kstate_eqb (es se) UpMatched) eqn:E6.
  { injection H as <- <- <-. bool_hyp E6. split.
    { intros _. destruct at_end; [|reflexivity]. rewrite (Hend eq_refl) in E6. cbn in E6.
      destruct E6; discriminate. }
    constructor; cbn [ms_async ms_nmm]; auto.
    apply follows_snoc; [auto|]. intros Hu. rewrite Hu in E6. destruct E6; discriminate. }
  (* expression event matched by an asynchronous one *)
  clear E5. destruct (find_index _ (ms_async m)) as [i|] eqn:E7.
  { injection H as <- <- <-. split; [discriminate|].
    destruct (find_index_In _ _ _ _ E7) as [y [Hy1 [Hy2 Hy3]]].
    assert (Ee : ee <> matches_none) by (intros ->; rewrite unif_event_none_l in Hy3; discriminate).
    apply unif_event_same in Hy3; [|auto|auto]. destruct Hy3 as [Ek En].
    constructor; cbn [ms_async ms_nmm]; auto.
    - intros k Hk Ht. apply EC in Hk. destruct Hk as [Hk|[Ees ->]]; [auto|]. destruct En as [En|En]; [contradiction|].
      rewrite Ees in En. rewrite Ek in *. apply M3; auto.
    - intros x Hx Hu. apply In_remove_at in Hx. destruct (M2 x Hx Hu); auto.
    - intros x Hx. apply In_remove_at in Hx. auto.
    - intros x Hx. apply In_remove_at in Hx. auto. }
  destruct (kstate_eqb (es ee) Down && _) eqn:E8.
  { injection H as <- <- <-. split; [discriminate|]. apply andb_prop in E8. destruct E8 as [E8 E9].
    bool_hyp E8. constructor; cbn [ms_async ms_nmm]; auto.
    - intros k Hk Ht. unfold enter in Hk. rewrite E8 in Hk. destruct Hk as [<-|Hk]; [|auto].
      destruct (async_pair_In _ _ _ E9) as [[x [H1 [H2 H3]]]|[x [H1 _]]]; [|discriminate].
      rewrite <- H3 in *. destruct (M2 x H1 H2); [auto|contradiction].
    - intros x Hx Hu. destruct (M2 x Hx Hu); auto. }
  destruct ((ek se =? k_timeout) && _ && _) eqn:E9.
  { injection H as <- <- <-. apply andb_prop in E9. destruct E9 as [E9 _]. apply andb_prop in E9.
    destruct E9 as [E9 _]. bool_hyp E9. split.
    { intros _. destruct at_end; [|reflexivity]. rewrite (Hend eq_refl) in E9. discriminate. }
    constructor; cbn [ms_async ms_nmm]; auto.
    apply follows_snoc; [auto|]. intros; contradiction. }
  discriminate H.
Qed.

Lemma releases_ok_of : forall p ee r, releases_follow p (ee :: r) ->
  releases_ok p ee /\ releases_follow (enter ee p) r.
Proof.
  intros p ee r H. cbn [releases_follow] in H. unfold releases_ok, enter.
  destruct (es ee); auto.
Qed.

Lemma loop_follows : forall fuel ex sq p d m r a t,
  minv p d m -> Forall (fun e => ek e <> k_any /\ es e <> NoMightMatch) ex ->
  releases_follow p ex ->
  Forall (fun e => ek e <> k_any /\ ek e <> k_none /\ seq_state e) sq ->
  match_loop fuel ex sq m = Some (r, a, t) -> r <> NoMatch -> follows (d ++ sq).
Proof.
  induction fuel as [|fuel IH]; intros ex sq p d m r a t M He Hf Hs H Hr; cbn [match_loop] in H.
  - destruct ex, sq; try discriminate. rewrite app_nil_r. apply (mi_follows _ _ _ M).
  - assert (Hd : ex = [] /\ sq = [] \/
      match match_step (hd matches_none ex) (hd matches_none sq)
              (match sq with [] => true | _ => false end) m with
      | MRet r t => Some (r, ms_any m, t)
      | MGo ae as_ m' => match_loop fuel (tl_if ae ex) (tl_if as_ sq) m'
      end = Some (r, a, t)) by (destruct ex, sq; auto).
    clear H. destruct Hd as [[-> ->]|H]; [rewrite app_nil_r; apply (mi_follows _ _ _ M)|].
    set (ee := hd matches_none ex) in *. set (se := hd matches_none sq) in *.
    set (at_end := match sq with [] => true | _ => false end) in *.
    assert (Hee : ek ee <> k_any /\ es ee <> NoMightMatch).
    { unfold ee. destruct ex; [split; discriminate|]. exact (Forall_inv He). }
    assert (Hrel : ee = matches_none \/ releases_ok p ee).
    { unfold ee. destruct ex; [auto|]. right. apply (releases_ok_of _ _ _ Hf). }
    assert (Hse : ek se <> k_any /\ seq_state se).
    { unfold se. destruct sq; [split; [discriminate|right; left; reflexivity]|].
      pose proof (Forall_inv Hs) as Hs0. cbn beta in Hs0. cbn [hd]. tauto. }
    assert (Hend : at_end = true -> se = matches_none).
    { unfold at_end, se. destruct sq; [reflexivity|discriminate]. }
    destruct (match_step ee se at_end m) as [r' t'|ae as_ m'] eqn:E.
    + injection H as -> _ _.
      assert (sq = []); [|subst; rewrite app_nil_r; apply (mi_follows _ _ _ M)].
      destruct sq as [|x sq]; [reflexivity|exfalso]. cbn [hd] in se. subst se at_end.
      destruct Hse as [Hs1 Hs2]. pose proof (Forall_inv Hs) as Hs3.
      clear -E Hr M Hs3 Hee. unfold match_step in E.
      cbn [ms_async ms_not ms_ign ms_any ms_nmm ms_e ms_down] in E.
      repeat match type of E with
      | (if ?b then _ else _) = _ => let B := fresh in destruct b eqn:B; try discriminate E
      | match find_index ?f ?l with _ => _ end = _ => destruct (find_index f l); try discriminate E
      end; injection E as <- <-; try (apply Hr; reflexivity).
      match goal with H : _ && event_eqb _ matches_none = true |- _ =>
        apply andb_prop in H; destruct H as [_ H]; apply event_eqb_eq' in H; rewrite H in Hs3 end.
      destruct Hs3 as [_ [Hs3 _]]. apply Hs3. reflexivity.
    + destruct (step_go p d ee se at_end m ae as_ m') as [Eas M']; try tauto.
      set (d' := if as_ then d ++ [se] else d) in *.
      assert (Hdone : d ++ sq = d' ++ tl_if as_ sq).
      { unfold d'. destruct as_; [|reflexivity].
        specialize (Eas eq_refl). unfold at_end, se in *. destruct sq as [|x sq]; [discriminate|].
        cbn. rewrite <- app_assoc. reflexivity. }
      rewrite Hdone. change (minv (if ae then enter ee p else p) d' m') in M'. clearbody d'.
      assert (Hx : exists p', minv p' d' m' /\ releases_follow p' (tl_if ae ex)).
      { destruct ae; [|exists p; auto]. unfold ee in *. destruct ex as [|x ex].
        - exists (enter matches_none p). split; [exact M'|exact Logic.I].
        - exists (enter x p). split; [exact M'|]. apply (releases_ok_of _ _ _ Hf). }
      destruct Hx as [p' [M'' Hf']].
      eapply (IH (tl_if ae ex) (tl_if as_ sq) p' d' m'); eauto.
      * destruct ae; [|exact He]. destruct ex; [exact He|]. exact (Forall_inv_tail He).
      * destruct as_; [|exact Hs]. destruct sq; [exact Hs|]. exact (Forall_inv_tail Hs).
Qed.

(** The releases of a sequence which matches or might match a plain input come after
    presses of their keys. *)
Theorem match_follows : forall ex sq r a t,
  plain_input ex ->
  Forall (fun e => ek e <> k_any /\ ek e <> k_none /\ seq_state e) sq ->
  match_keys ex sq = Some (r, a, t) -> r <> NoMatch -> follows sq.
Proof.
  intros ex sq r a t [H1 [H2 _]] Hs H Hr.
  apply (loop_follows (length ex + length sq) ex sq [] [] ms_init r a t); auto.
  constructor; cbn; try tauto.
  intros a0 x b Hx. destruct a0; discriminate.
Qed.
