(** Proofs about strings in inputs (C112). *)
From Coq Require Import List Arith NArith Bool Lia.
From Verif Require Import Base Key Match MatchSpec MatchProofs MatchMore MatchLang StageOut ParseSeq Config StringInputSpec.
Import ListNotations.
Local Open Scope N_scope.

(** * Runs of the matcher *)
Definition accepts (ex sq : sequence) (m : mstate) : Prop :=
  exists f, match_loop f ex sq m = Some (Matched, [], None).
Definition st (a : list event) (n : list key) (e : nat) (d : bool) : mstate := MS a n [] [] false e d.
(** for every counter and every flag *)
Definition acc (ex sq : sequence) (a : list event) (n : list key) : Prop :=
  forall e d, accepts ex sq (st a n e d).

Lemma accepts_go ex sq m ae as_ m' : ex <> [] \/ sq <> [] ->
  match_step (hd matches_none ex) (hd matches_none sq) (match sq with [] => true | _ => false end) m = MGo ae as_ m' ->
  accepts (tl_if ae ex) (tl_if as_ sq) m' -> accepts ex sq m.
Proof.
  intros NE Q [f H]. exists (S f). destruct ex as [|ee ex], sq as [|se sq]; cbn [match_loop];
    try (destruct NE; contradiction); cbn [hd] in *; rewrite Q; exact H.
Qed.
Lemma acc_done a n : acc [] [] a n.
Proof. intros e d. exists 0%nat. reflexivity. Qed.

(** The next event of the sequence does not press a key which must not be held. *)
Definition next_ok (sq : sequence) (n : list key) : Prop :=
  match sq with
  | [] => True
  | se :: _ => real_key (ek se) /\ (es se = Up \/ es se = Down /\ ~ In (ek se) n)
  end.
Lemma next_gate sq n : next_ok sq n ->
  (kstate_eqb (es (hd matches_none sq)) Down || kstate_eqb (es (hd matches_none sq)) DownMatched)
  && mem_key (ek (hd matches_none sq)) n = false.
Proof.
  destruct sq as [|se sq]; [reflexivity|]. cbn [next_ok hd]. intros [_ [E|[E H]]]; rewrite E; cbn; [reflexivity|].
  apply mem_key_false. exact H.
Qed.

Lemma acc_push ee ex sq a n : (es ee = DownAsync \/ es ee = UpAsync) -> next_ok sq n ->
  acc ex sq (a ++ [ee]) n -> acc (ee :: ex) sq a n.
Proof.
  intros SE NX H e d. apply (accepts_go _ _ _ true false (st (a ++ [ee]) n (S e) d)); [left; discriminate| |apply (H (S e) d)].
  unfold match_step. cbn [hd]. pose proof (next_gate sq n NX) as G.
  replace (match es ee with Down => remove_key (ek ee) (ms_not (st a n e d)) | _ => ms_not (st a n e d) end) with n
    by (destruct SE as [-> | ->]; reflexivity).
  cbn [ms_not]. rewrite G.
  destruct SE as [-> | ->]; reflexivity.
Qed.
Lemma acc_not k ex sq a n : k <> k_timeout -> next_ok sq n -> acc ex sq a (n ++ [k]) -> acc (ev0 k Not :: ex) sq a n.
Proof.
  intros NT NX H e d. apply (accepts_go _ _ _ true false (st a (n ++ [k]) (S e) d)); [left; discriminate| |apply (H (S e) d)].
  unfold match_step. cbn [hd es ev0 ek]. pose proof (next_gate sq n NX) as G.
  cbn [ms_not st]. rewrite G. cbn [kstate_eqb orb]. apply N.eqb_neq in NT. rewrite NT. reflexivity.
Qed.
Definition without (k : key) (a : list event) : list event := List.filter (fun x => negb (k =? ek x)) a.

Lemma unif_event_real a b : real_key (ek a) -> real_key (ek b) ->
  unif_event a b = (ek a =? ek b) && unif_state (es a) (es b).
Proof.
  intros A B. unfold unif_event. rewrite unif_key_real by assumption.
  rewrite (real_not_any _ A), (real_not_any _ B), (real_not_timeout _ A). cbn [andb].
  destruct (ek a =? ek b); reflexivity.
Qed.

(** A press or release which the expression asks for *)
Lemma acc_down k ex sq a n : real_key k ->
  acc ex sq (without k a) (remove_key k n) -> acc (ev0 k Down :: ex) (ev0 k Down :: sq) a n.
Proof.
  intros R H e d. apply (accepts_go _ _ _ true true (st (without k a) (remove_key k n) (S e) true)); [left; discriminate| |apply (H (S e) true)].
  unfold match_step. cbn [hd es ev0 ek st ms_not ms_async ms_ign ms_any ms_nmm ms_e ms_down kstate_eqb orb andb negb].
  assert (M : mem_key k (remove_key k n) = false).
  { apply mem_key_false. intro Q. apply remove_key_In in Q. destruct Q as [_ Q]. contradiction. }
  rewrite M, (real_not_any _ R). cbn [andb].
  rewrite unif_event_real by assumption. cbn [ek es ev0]. rewrite N.eqb_refl. cbn [unif_state norm_state kstate_eqb andb].
  rewrite orb_true_r. reflexivity.
Qed.
Lemma acc_up k ex sq a n : real_key k ->
  acc ex sq (without k a) n -> acc (ev0 k Up :: ex) (ev0 k Up :: sq) a n.
Proof.
  intros R H e d. apply (accepts_go _ _ _ true true (st (without k a) n (S e) d)); [left; discriminate| |apply (H (S e) d)].
  unfold match_step. cbn [hd es ev0 ek st ms_not ms_async ms_ign ms_any ms_nmm ms_e ms_down kstate_eqb orb andb negb].
  rewrite (real_not_any _ R). cbn [andb].
  rewrite unif_event_real by assumption. cbn [ek es ev0]. rewrite N.eqb_refl. cbn [unif_state norm_state kstate_eqb andb].
  rewrite orb_false_r. reflexivity.
Qed.

(** A release of a key which may be released at any time *)
Definition head_fits (k : key) (ex : sequence) : Prop :=
  match ex with
  | [] => True
  | ee :: _ => real_key (ek ee) /\ (es ee = Down \/ es ee = Up /\ ek ee <> k)
  end.
Definition nots_after (ex : sequence) (n : list key) : list key :=
  match ex with ee :: _ => match es ee with Down => remove_key (ek ee) n | _ => n end | [] => n end.
Lemma find_release k a : real_key k -> (forall x, In x a -> real_key (ek x)) -> In (ev0 k UpAsync) a ->
  exists i, find_index (fun x => kstate_eqb (es x) UpAsync && unif_key k (ek x)) a = Some i.
Proof.
  intros R RA. induction a as [|x a IH]; [intros []|]. intros [Q|Q]; cbn [find_index].
  - subst x. cbn [es ev0 ek kstate_eqb andb]. rewrite unif_key_real, N.eqb_refl by assumption. eauto.
  - destruct (kstate_eqb (es x) UpAsync && unif_key k (ek x)); [eauto|].
    destruct IH as [i ->]; [|exact Q|eauto]. intros y Hy. apply RA. right. exact Hy.
Qed.
Lemma acc_release k ex sq a n : real_key k -> head_fits k ex ->
  (forall x, In x a -> real_key (ek x)) -> In (ev0 k UpAsync) a ->
  (forall i, find_index (fun x => kstate_eqb (es x) UpAsync && unif_key k (ek x)) a = Some i ->
     acc ex sq (update_at i (set_es Up) a) (nots_after ex n)) ->
  acc ex (ev0 k Up :: sq) a n.
Proof.
  intros R HF RA IN H e d. destruct (find_release k a R RA IN) as [i FI].
  apply (accepts_go _ _ _ false true (st (update_at i (set_es Up) a) (nots_after ex n) e d)); [right; discriminate| |apply (H i FI e d)].
  unfold match_step. cbn [hd es ev0 ek st ms_not ms_async ms_ign ms_any ms_nmm ms_e ms_down kstate_eqb orb andb negb].
  destruct ex as [|ee ex]; cbn [hd head_fits nots_after] in *.
  - cbn [matches_none es ek kstate_eqb orb andb].
    replace (k_none =? k_any) with false by reflexivity. cbn [andb].
    replace (unif_event (ev0 k Up) matches_none) with false by (symmetry; apply unif_event_none_r). replace (k_none =? k_timeout) with false by reflexivity. cbn [andb]. rewrite FI. rewrite orb_false_r. reflexivity.
  - destruct HF as [RE HE]. rewrite (real_not_any _ RE). cbn [andb]. rewrite (real_not_timeout _ RE). cbn [andb].
    rewrite unif_event_real by assumption. cbn [ek es ev0].
    destruct HE as [E|[E NE]]; rewrite E; cbn [kstate_eqb orb andb unif_state norm_state].
    + rewrite andb_false_r, FI, orb_false_r. reflexivity.
    + assert (Q : k =? ek ee = false) by (apply N.eqb_neq; congruence). rewrite Q. cbn [andb]. rewrite FI, orb_false_r. reflexivity.
Qed.

(** The modifier stays held between two strokes which need it. *)
Lemma acc_held mk k ex sq a n : real_key mk -> real_key k -> mk <> k -> ~ In k n ->
  (forall x, In x a -> real_key (ek x) /\ (es x = Up \/ es x = UpAsync \/ x = ev0 mk DownAsync)) ->
  unmatched_async_pair mk None a = true ->
  acc ex (ev0 k Down :: sq) a (remove_key mk n) -> acc (ev0 mk Down :: ex) (ev0 k Down :: sq) a n.
Proof.
  intros RM R NE NI SA P H e d. apply (accepts_go _ _ _ true false (st a (remove_key mk n) (S e) d)); [left; discriminate| |apply (H (S e) d)].
  unfold match_step. cbn [hd es ev0 ek st ms_not ms_async ms_ign ms_any ms_nmm ms_e ms_down kstate_eqb orb andb negb].
  assert (M : mem_key k (remove_key mk n) = false).
  { apply mem_key_false. intro Q. apply remove_key_In in Q. destruct Q as [Q _]. contradiction. }
  rewrite M, (real_not_any _ RM), (real_not_timeout _ RM). cbn [andb].
  rewrite unif_event_real by assumption. cbn [ek es ev0].
  assert (Q : k =? mk = false) by (apply N.eqb_neq; congruence). rewrite Q. cbn [andb].
  assert (F1 : find_index (fun x => kstate_eqb (es x) DownAsync && unif_key k (ek x)) a = None).
  { apply find_index_none_ex. intros x Hx. destruct (SA x Hx) as [RX [SX|[SX|SX]]]; try (rewrite SX; reflexivity).
    subst x. cbn [es ek ev0 kstate_eqb andb]. rewrite unif_key_real by assumption. exact Q. }
  rewrite F1.
  assert (F2 : find_index (fun x => unif_event {| ek := mk; es := Down; ev := 0 |} x) a = None).
  { apply find_index_none_ex. intros x Hx. destruct (SA x Hx) as [RX SX].
    rewrite unif_event_real by assumption. cbn [es].
    destruct SX as [SX|[SX|SX]]; try (rewrite SX; apply andb_false_r). }
  unfold ev0 in *. rewrite F2, P. reflexivity.
Qed.

(** * The list of asynchronous events *)
Section Typing.
Variable mk : key.
Hypothesis mk_real : real_key mk.
Hypothesis mk_mod : In mk modifier_keys.

(** Every asynchronous press of the modifier directly follows its asynchronous release. *)
Fixpoint paired (after_up : bool) (a : list event) : Prop :=
  match a with
  | [] => True
  | x :: r => (x = ev0 mk DownAsync -> after_up = true) /\ paired (event_eqb x (ev0 mk UpAsync)) r
  end.
Lemma paired_mono a : forall b, paired false a -> paired b a.
Proof.
  destruct a as [|x a]; intros b H; [exact Logic.I|]. destruct H as [H1 H2]. split; [|exact H2].
  intro Q. discriminate (H1 Q).
Qed.
Lemma paired_without k a : k <> mk -> forall b, paired b a -> paired b (without k a).
Proof.
  intros NE. induction a as [|x a IH]; intros b H; [exact Logic.I|]. destruct H as [H1 H2].
  unfold without. cbn [List.filter]. destruct (k =? ek x) eqn:Q; cbn [negb]; fold (without k a).
  - apply N.eqb_eq in Q. assert (F : event_eqb x (ev0 mk UpAsync) = false).
    { destruct (event_eqb_spec x (ev0 mk UpAsync)) as [E|]; [|reflexivity]. subst x. cbn in Q. contradiction. }
    rewrite F in H2. apply IH. apply paired_mono. exact H2.
  - split; [exact H1|]. apply IH. exact H2.
Qed.
Lemma paired_update k a : k <> mk -> forall b i,
  find_index (fun x => kstate_eqb (es x) UpAsync && unif_key k (ek x)) a = Some i ->
  real_key k -> (forall x, In x a -> real_key (ek x)) -> paired b a -> paired b (update_at i (set_es Up) a).
Proof.
  intros NE. induction a as [|x a IH]; intros b i F R RA H; [discriminate F|]. cbn [find_index] in F. destruct H as [H1 H2].
  destruct (kstate_eqb (es x) UpAsync && unif_key k (ek x)) eqn:Q.
  - injection F as <-. cbn [update_at]. apply andb_true_iff in Q. destruct Q as [_ Q].
    rewrite unif_key_real in Q by (try exact R; apply RA; left; reflexivity). apply N.eqb_eq in Q.
    split; [intro E; apply (f_equal es) in E; discriminate E|].
    assert (F : event_eqb x (ev0 mk UpAsync) = false).
    { destruct (event_eqb_spec x (ev0 mk UpAsync)) as [E|]; [|reflexivity]. subst x. cbn in Q. contradiction. }
    rewrite F in H2. apply paired_mono. exact H2.
  - destruct (find_index _ a) as [j|] eqn:FJ; [|discriminate]. injection F as <-. cbn [update_at]. split; [exact H1|].
    apply IH; auto. intros y Hy. apply RA. right. exact Hy.
Qed.
Lemma paired_single x a : x <> ev0 mk DownAsync -> forall b, paired b a -> paired b (a ++ [x]).
Proof.
  intros NE. induction a as [|y a IH]; intros b H; cbn [app paired].
  - split; [intro Q; contradiction|exact Logic.I].
  - destruct H as [H1 H2]. split; [exact H1|]. apply IH. exact H2.
Qed.
Lemma paired_block a : forall b, paired b a -> paired b (a ++ [ev0 mk UpAsync; ev0 mk DownAsync]).
Proof.
  induction a as [|y a IH]; intros b H; cbn [app paired].
  - split; [intro Q; discriminate Q|]. split; [intros _; apply event_eqb_refl|exact Logic.I].
  - destruct H as [H1 H2]. split; [exact H1|]. apply IH. exact H2.
Qed.
Lemma paired_pair a : forall b prev, paired b a -> b = match prev with Some p => event_eqb p (ev0 mk UpAsync) | None => false end ->
  In (ev0 mk DownAsync) a -> unmatched_async_pair mk prev a = true.
Proof.
  induction a as [|x a IH]; intros b prev H Q IN; [contradiction|]. destruct H as [H1 H2].
  cbn [unmatched_async_pair]. destruct (event_eqb_spec x (ev0 mk DownAsync)) as [E|E].
  - rewrite <- Q. apply H1. exact E.
  - destruct IN as [IN|IN]; [contradiction|]. eapply IH; [exact H2|reflexivity|exact IN].
Qed.

Record ok (p : list key) (a : list event) : Prop := Ok {
  ok_down : forall k, In k p -> In (ev0 k UpAsync) a;
  ok_all : forall x, In x a -> real_key (ek x) /\ (es x = Up \/ es x = UpAsync \/ x = ev0 mk DownAsync)
}.
Lemma in_without k x a : In x (without k a) <-> In x a /\ ek x <> k.
Proof.
  unfold without. rewrite filter_In. split; intros [A B]; (split; [exact A|]).
  - intro Q. rewrite Q, N.eqb_refl in B. discriminate B.
  - apply negb_true_iff, N.eqb_neq. congruence.
Qed.
Lemma ok_without k p a : ~ In k p -> ok p a -> ok p (without k a).
Proof.
  intros NI [A B]. split.
  - intros j Hj. apply in_without. split; [apply A; exact Hj|]. cbn. intro Q. subst j. contradiction.
  - intros x Hx. apply in_without in Hx. apply B. apply Hx.
Qed.
Lemma in_update i a : forall x, In x (update_at i (set_es Up) a) -> In x a \/ exists y, In y a /\ x = set_es Up y.
Proof.
  revert i. induction a as [|y a IH]; intros i x H; [destruct i; contradiction|].
  destruct i as [|i]; cbn [update_at] in H; destruct H as [H|H].
  - right. exists y. split; [left; reflexivity|congruence].
  - left. right. exact H.
  - left. left. exact H.
  - destruct (IH i x H) as [Q|(z & Q & E)]; [left; right; exact Q|right; exists z; split; [right; exact Q|exact E]].
Qed.
Lemma update_keeps f k i a : find_index (fun x => kstate_eqb (es x) UpAsync && unif_key k (ek x)) a = Some i ->
  real_key k -> (forall x, In x a -> real_key (ek x)) ->
  forall x, In x a -> ek x <> k -> In x (update_at i f a).
Proof.
  revert i. induction a as [|y a IH]; intros i F R RA x H NE; [contradiction|]. cbn [find_index] in F.
  destruct (kstate_eqb (es y) UpAsync && unif_key k (ek y)) eqn:Q.
  - injection F as <-. cbn [update_at]. destruct H as [H|H]; [|right; exact H]. subst y.
    apply andb_true_iff in Q. destruct Q as [_ Q].
    rewrite unif_key_real in Q by (try exact R; apply RA; left; reflexivity). apply N.eqb_eq in Q. congruence.
  - destruct (find_index _ a) as [j|] eqn:FJ; [|discriminate]. injection F as <-. cbn [update_at].
    destruct H as [H|H]; [left; exact H|right]. apply IH; auto. intros z Hz. apply RA. right. exact Hz.
Qed.
Lemma ok_update p q k a i : NoDup (p ++ k :: q) -> real_key k -> ok (p ++ k :: q) a ->
  find_index (fun x => kstate_eqb (es x) UpAsync && unif_key k (ek x)) a = Some i ->
  ok (p ++ q) (update_at i (set_es Up) a).
Proof.
  intros ND R [A B] F. apply NoDup_remove in ND. destruct ND as [_ ND]. split.
  - intros j Hj. apply (update_keeps _ k); auto; [intros x Hx; apply B; exact Hx| |].
    + apply A. apply in_app_iff in Hj. apply in_app_iff. cbn [In]. tauto.
    + cbn. intro Q. subst j. contradiction.
  - intros x Hx. apply in_update in Hx. destruct Hx as [Hx|(y & Hy & E)]; [apply B; exact Hx|].
    subst x. cbn. destruct (B y Hy) as [RY _]. auto.
Qed.
Lemma ok_push k p a : real_key k -> ok p a -> ok (k :: p) (a ++ [ev0 k UpAsync]).
Proof.
  intros R [A B]. split.
  - intros j [Q|Q]; apply in_or_app; [right; left; congruence|left; apply A; exact Q].
  - intros x Hx. apply in_app_iff in Hx. destruct Hx as [Hx|[Hx|[]]]; [apply B; exact Hx|]. subst x. cbn. auto.
Qed.
Lemma ok_add x p a : real_key (ek x) -> es x = UpAsync \/ x = ev0 mk DownAsync -> ok p a -> ok p (a ++ [x]).
Proof.
  intros R SX [A B]. split.
  - intros j Q. apply in_or_app. left. apply A. exact Q.
  - intros y Hy. apply in_app_iff in Hy. destruct Hy as [Hy|[Hy|[]]]; [apply B; exact Hy|]. subst y. auto.
Qed.

Lemma paired_no a : (forall x, In x a -> ek x <> mk) -> forall b, paired b a.
Proof.
  induction a as [|x a IH]; intros H b; [exact Logic.I|]. split.
  - intro Q. subst x. exfalso. apply (H _ (or_introl eq_refl)). reflexivity.
  - apply IH. intros y Hy. apply H. right. exact Hy.
Qed.

(** * The expression of a string *)
Definition switch (prev cur : bool) : sequence :=
  match prev, cur with
  | false, false => []
  | false, true => [ev0 mk DownAsync; ev0 mk Down]
  | true, false => [ev0 mk Up]
  | true, true => [ev0 mk UpAsync; ev0 mk DownAsync; ev0 mk Down]
  end.
Fixpoint body (prev : bool) (l : list stroke) : sequence :=
  match l with
  | [] => if prev then [ev0 mk UpAsync] else []
  | x :: r => switch prev (needs x) ++ ev0 (st_key x) Down :: ev0 (st_key x) UpAsync :: body (needs x) r
  end.
(** What remains after the asynchronous events at the front *)
Definition remains (r h : bool) (l : list stroke) : sequence :=
  match l with
  | [] => []
  | x :: l' => (if r then [] else if needs x then [ev0 mk Down] else if h then [ev0 mk Up] else [])
               ++ ev0 (st_key x) Down :: ev0 (st_key x) UpAsync :: body (needs x) l'
  end.
Definition letter (k : key) : Prop := real_key k /\ ~ In k modifier_keys.
Record inv (u r h : bool) (p : list key) (l : list stroke) (a : list event) (n : list key) : Prop := Inv {
  inv_ok : ok p a;
  inv_nots : incl n modifier_keys;
  inv_used : u = true -> ~ In mk n;
  inv_letters : Forall (fun x => letter (st_key x)) l;
  inv_down : forall k, In k p -> letter k;
  inv_nodup : NoDup p;
  inv_paired : forall x l', l = x :: l' -> r = true \/ h = true \/ needs x = false -> paired false a;
  inv_held : forall x l', l = x :: l' -> r = false -> h = true -> needs x = true ->
    In (ev0 mk UpAsync) a /\ In (ev0 mk DownAsync) a
}.
Lemma letter_mk k : letter k -> k <> mk.
Proof. intros [_ H] Q. subst k. contradiction. Qed.
Lemma incl_remove k n : incl n modifier_keys -> incl (remove_key k n) modifier_keys.
Proof. intros H x Hx. apply remove_key_In in Hx. apply H. apply Hx. Qed.
Lemma not_in_remove k j n : ~ In k n -> ~ In k (remove_key j n).
Proof. intros H Q. apply remove_key_In in Q. apply H. apply Q. Qed.
Lemma incl_nots ex n : incl n modifier_keys -> incl (nots_after ex n) modifier_keys.
Proof. intro H. destruct ex as [|e ex]; [exact H|]. cbn. destruct (es e); try exact H. apply incl_remove. exact H. Qed.
Lemma not_in_nots k ex n : ~ In k n -> ~ In k (nots_after ex n).
Proof. intro H. destruct ex as [|e ex]; [exact H|]. cbn. destruct (es e); try exact H. apply not_in_remove. exact H. Qed.

Lemma types_next u h p l sq n : types mk u false h p l sq -> p <> [] -> incl n modifier_keys -> (u = true -> ~ In mk n) ->
  (forall k, In k p -> letter k) -> Forall (fun x => letter (st_key x)) l -> next_ok sq n.
Proof.
  intros H NP IN US LP LL. inversion H; subst; cbn [next_ok ek es ev0]; auto.
  - split; [|auto]. apply LP. apply in_app_iff. right. left. reflexivity.
  - apply Forall_inv in LL. destruct LL as [A B]. split; [exact A|right; split; [reflexivity|]]. intro Q. apply B, IN, Q.
  - split; [exact mk_real|right; split; [reflexivity|]]. match goal with UP : _ \/ p = [] |- _ => destruct UP as [Q|Q] end; [apply US; exact Q|contradiction].
Qed.

(** The asynchronous events after a stroke are taken before anything else happens. *)
Lemma after_stroke h k p l sq a n : letter k -> ~ In k p -> ok p a -> paired false a ->
  (forall j, In j p -> letter j) ->
  next_ok sq n ->
  (forall a', ok (k :: p) a' ->
     (forall x l', l = x :: l' -> h = true \/ needs x = false -> paired false a') ->
     (forall x l', l = x :: l' -> h = true -> needs x = true -> In (ev0 mk UpAsync) a' /\ In (ev0 mk DownAsync) a') ->
     acc (remains false h l) sq a' n) ->
  acc (ev0 k UpAsync :: body h l) sq a n.
Proof.
  intros LK NK OK PA LP NX H.
  apply acc_push; [right; reflexivity|exact NX|].
  pose proof (ok_push k p a (proj1 LK) OK) as OK1.
  assert (P1 : paired false (a ++ [ev0 k UpAsync])) by (apply paired_single; [intro Q; apply (f_equal es) in Q; discriminate Q|exact PA]).
  destruct l as [|x l]; cbn [body].
  - destruct h.
    + apply acc_push; [right; reflexivity|exact NX|]. apply H.
      * apply ok_add; [exact mk_real|left; reflexivity|exact OK1].
      * intros ? ? Q. discriminate Q.
      * intros ? ? Q. discriminate Q.
    + apply H; [exact OK1| |]; intros ? ? Q; discriminate Q.
  - destruct h, (needs x) eqn:NE; cbn [switch app].
    + apply acc_push; [right; reflexivity|exact NX|]. apply acc_push; [left; reflexivity|exact NX|].
      assert (EQ : ((a ++ [ev0 k UpAsync]) ++ [ev0 mk UpAsync]) ++ [ev0 mk DownAsync]
                   = (a ++ [ev0 k UpAsync]) ++ [ev0 mk UpAsync; ev0 mk DownAsync]) by (rewrite <- app_assoc; reflexivity).
      specialize (H (((a ++ [ev0 k UpAsync]) ++ [ev0 mk UpAsync]) ++ [ev0 mk DownAsync])).
      cbn [remains] in H. rewrite NE in H. apply H.
      * apply ok_add; [exact mk_real|right; reflexivity|]. apply ok_add; [exact mk_real|left; reflexivity|exact OK1].
      * intros ? ? _ _. rewrite EQ. apply paired_block. exact P1.
      * intros ? ? _ _ _. rewrite EQ. split; apply in_or_app; right; cbn; auto.
    + specialize (H (a ++ [ev0 k UpAsync])). cbn [remains] in H. rewrite NE in H. apply H; [exact OK1|intros; exact P1|].
      intros ? ? Q _ Q2. injection Q as <- <-. congruence.
    + apply acc_push; [left; reflexivity|exact NX|].
      specialize (H ((a ++ [ev0 k UpAsync]) ++ [ev0 mk DownAsync])). cbn [remains] in H. rewrite NE in H. apply H.
      * apply ok_add; [exact mk_real|right; reflexivity|exact OK1].
      * intros ? ? Q [Q2|Q2]; [discriminate Q2|]. injection Q as <- <-. congruence.
      * intros ? ? _ Q. discriminate Q.
    + specialize (H (a ++ [ev0 k UpAsync])). cbn [remains] in H. rewrite NE in H. apply H; [exact OK1|intros; exact P1|].
      intros ? ? _ Q. discriminate Q.
Qed.

Theorem types_match u r h p l sq : types mk u r h p l sq -> forall a n, inv u r h p l a n -> acc (remains r h l) sq a n.
Proof.
  intro H. induction H as [u r h p|u r h p q k l sq H IH|u r h p x l sq NE NI H IH|u p x l sq NE UP H IH|u p x l sq NE H IH|u p x l sq NE H IH];
    intros a n IV; pose proof IV as [OK NN US LL LP ND PA HE].
  - apply acc_done.
  - (* a key is released *)
    assert (LK : letter k) by (apply LP, in_app_iff; right; left; reflexivity).
    assert (RA : forall x, In x a -> real_key (ek x)) by (intros x Hx; apply OK; exact Hx).
    apply acc_release; [apply LK| |exact RA|apply OK, in_app_iff; right; left; reflexivity|].
    + destruct l as [|x l]; [exact Logic.I|]. cbn [remains]. inversion LL as [|? ? LX _]; subst.
      destruct r; [|destruct (needs x); [|destruct h]]; cbn [app head_fits ek es ev0]; split; auto; try exact mk_real; try apply LX.
      right. split; [reflexivity|]. apply not_eq_sym, letter_mk, LK.
    + intros i FI. apply IH. split.
      * eapply ok_update; [exact ND|apply LK|exact OK|exact FI].
      * apply incl_nots. exact NN.
      * intro Q. apply not_in_nots, US, Q.
      * exact LL.
      * intros j Hj. apply LP. apply in_app_iff in Hj. apply in_app_iff. cbn [In]. tauto.
      * apply NoDup_remove in ND. apply ND.
      * intros y l' E Q. apply (paired_update k); [apply letter_mk, LK|exact FI|apply LK|exact RA|]. apply (PA y l' E Q).
      * intros y l' E Q1 Q2 Q3. destruct (HE y l' E Q1 Q2 Q3) as [A B].
        split; (apply (update_keeps _ k i a FI); [apply LK|exact RA|assumption|cbn; apply not_eq_sym, letter_mk, LK]).
  - (* the key of a stroke *)
    inversion LL as [|? ? LX LR]; subst. set (k := st_key x) in *.
    assert (PR : paired false a).
    { apply (PA x l eq_refl). destruct (needs x); auto. }
    assert (NXT : forall n', incl n' modifier_keys -> (u = true -> ~ In mk n') -> next_ok sq n').
    { intros n' A B. eapply types_next; [exact H|discriminate|exact A|exact B| |exact LR].
      intros j [Q|Q]; [subst j; exact LX|apply LP; exact Q]. }
    assert (GO : forall n', incl n' modifier_keys -> (u = true -> ~ In mk n') ->
      acc (ev0 k Down :: ev0 k UpAsync :: body (needs x) l) (ev0 k Down :: sq) a n').
    { intros n' A B. apply acc_down; [apply LX|].
      apply (after_stroke _ _ p); [exact LX|exact NI|apply ok_without; assumption| |exact LP| |].
      - apply paired_without; [apply letter_mk, LX|exact PR].
      - apply NXT; [apply incl_remove; exact A|intro Q; apply not_in_remove, B, Q].
      - intros a' O1 O2 O3. apply IH. split; auto.
        + apply incl_remove; exact A.
        + intro Q; apply not_in_remove, B, Q.
        + intros j [Q|Q]; [subst j; exact LX|apply LP; exact Q].
        + constructor; assumption.
        + intros y l' E [Q|[Q|Q]]; [discriminate Q| |]; apply (O2 y l' E); auto.
        + intros y l' E _ Q1 Q2. apply (O3 y l' E Q1 Q2). }
    cbn [remains]. fold k. destruct r; [apply GO; assumption|].
    destruct (needs x) eqn:Q; cbn [app]; [|apply GO; assumption].
    destruct (HE x l eq_refl eq_refl eq_refl Q) as [_ ID].
    apply acc_held; [exact mk_real|apply LX|apply not_eq_sym, letter_mk, LX| |apply OK| |].
    + intro Q2. apply LX. apply NN. exact Q2.
    + apply (paired_pair a false None); [exact PR|reflexivity|exact ID].
    + apply GO; [apply incl_remove; exact NN|]. intro Q2. apply not_in_remove, US, Q2.
  - (* the modifier is pressed *)
    cbn [remains app] in *. rewrite NE in *. cbn [app] in *. apply acc_down; [exact mk_real|]. apply IH.
    assert (NP : ~ In mk p) by (intro Q; apply (letter_mk mk (LP mk Q)); reflexivity).
    split; auto.
    + apply ok_without; assumption.
    + apply incl_remove; exact NN.
    + intros _ Q. apply remove_key_In in Q. destruct Q as [_ Q]. contradiction.
    + intros _ _ _ _. apply paired_no. intros y Hy. apply in_without in Hy. apply Hy.
    + intros ? ? _ Q. discriminate Q.
  - (* the modifier is released *)
    cbn [remains app] in *. rewrite NE in *. cbn [app] in *. apply acc_up; [exact mk_real|]. apply IH.
    assert (NP : ~ In mk p) by (intro Q; apply (letter_mk mk (LP mk Q)); reflexivity).
    split; auto.
    + apply ok_without; assumption.
    + intros _ _ _ _. apply paired_no. intros y Hy. apply in_without in Hy. apply Hy.
    + intros ? ? _ Q. discriminate Q.
  - (* the modifier is released and pressed again *)
    assert (NP : ~ In mk p) by (intro Q; apply (letter_mk mk (LP mk Q)); reflexivity).
    assert (RA : forall y, In y a -> real_key (ek y)) by (intros y Hy; apply OK; exact Hy).
    destruct (HE x l eq_refl eq_refl eq_refl NE) as [IU _].
    cbn [remains app] in *. rewrite NE in *. cbn [app] in *.
    apply acc_release; [exact mk_real|cbn; auto|exact RA|exact IU|].
    intros i FI. apply acc_down; [exact mk_real|]. apply IH. split; auto.
    + apply ok_without; [exact NP|]. destruct OK as [O1 O2]. split.
      * intros j Hj. apply (update_keeps _ mk i a FI mk_real RA); [apply O1; exact Hj|]. cbn. apply letter_mk, LP, Hj.
      * intros y Hy. apply in_update in Hy. destruct Hy as [Hy|(z & Hz & E)]; [apply O2; exact Hy|].
        subst y. cbn. split; [apply RA; exact Hz|auto].
    + apply incl_remove, incl_nots, NN.
    + intro Q. apply not_in_remove, not_in_nots, US, Q.
    + intros _ _ _ _. apply paired_no. intros y Hy. apply in_without in Hy. apply Hy.
    + intros ? ? _ Q. discriminate Q.
Qed.
End Typing.

(** * Strings as they are loaded *)
Definition sides (sh ct : key) : Prop := (sh = ShiftLeft \/ sh = ShiftRight) /\ (ct = ControlLeft \/ ct = ControlRight).
Lemma replace_key_app b k x y : replace_key b k (x ++ y) = replace_key b k x ++ replace_key b k y.
Proof. apply map_app. Qed.
Lemma replace_not_app b l r x y : replace_not_key b l r (x ++ y) = replace_not_key b l r x ++ replace_not_key b l r y.
Proof. apply flat_map_app. Qed.
Lemma sided_app sh ct x y : sided sh ct (x ++ y) = sided sh ct x ++ sided sh ct y.
Proof. unfold sided. rewrite !replace_not_app, !replace_key_app, !replace_not_app, !replace_key_app. reflexivity. Qed.
Lemma sided_stroke sh ct k s : k <> first_logical -> k <> first_logical + 1 -> sided sh ct [ev0 k s] = [ev0 k s].
Proof.
  intros A B. apply N.eqb_neq in A, B. unfold sided, replace_not_key, replace_key.
  cbn [flat_map map app ek es ev0]. rewrite A, andb_false_r. cbn [flat_map map app ek es ev0]. rewrite A.
  cbn [flat_map map app ek es ev0]. rewrite B, andb_false_r. cbn [flat_map map app ek es ev0]. rewrite B. reflexivity.
Qed.
Definition one_bit (m : N) : Prop := m = 1 \/ m = 2 \/ m = 4 \/ m = 8.
Lemma mods_switch sh ct m prev cur : sides sh ct -> one_bit m -> prev = 0 \/ prev = m -> cur = 0 \/ cur = m ->
  sided sh ct (flat_map (type_input_mod cur prev false) mod_keys)
  = switch (modifier_key sh ct m) (negb (prev =? 0)) (negb (cur =? 0)).
Proof.
  intros [[->| ->] [->| ->]] [->|[->|[->| ->]]] [->| ->] [->| ->]; reflexivity.
Qed.
Lemma mods_end sh ct m prev : sides sh ct -> one_bit m -> prev = 0 \/ prev = m ->
  sided sh ct (release_mods UpAsync prev) = (if negb (prev =? 0) then [ev0 (modifier_key sh ct m) UpAsync] else []).
Proof.
  intros [[->| ->] [->| ->]] [->|[->|[->| ->]]] [->| ->]; reflexivity.
Qed.
Lemma sided_body sh ct m l : sides sh ct -> one_bit m -> one_modifier m l -> forall prev, prev = 0 \/ prev = m ->
  let '(sq, last) := type_input false l prev false in
  sided sh ct (sq ++ release_mods UpAsync last) = body (modifier_key sh ct m) (negb (prev =? 0)) l.
Proof.
  intros SI M. induction l as [|x l IH]; intros OM prev P; cbn [type_input body].
  - cbn [app]. apply mods_end; assumption.
  - inversion OM as [|? ? (R & NM & N1 & N2 & MX) OR]; subst.
    specialize (IH OR (st_mods x) MX). destruct (type_input false l (st_mods x) false) as [rest last].
    rewrite <- app_assoc, sided_app, (mods_switch sh ct m) by assumption. f_equal.
    change ([ev0 (st_key x) Down; ev0 (st_key x) UpAsync] ++ rest)
      with ([ev0 (st_key x) Down] ++ [ev0 (st_key x) UpAsync] ++ rest).
    rewrite <- !app_assoc, !sided_app, !sided_stroke by assumption. rewrite <- sided_app, IH. reflexivity.
Qed.
Lemma sided_string sh ct m x l : sides sh ct -> one_bit m -> one_modifier m (x :: l) ->
  sided sh ct (string_input false (x :: l))
  = sided sh ct (flat_map (type_input_mod (st_mods x) 0 true) mod_keys)
    ++ ev0 (st_key x) Down :: ev0 (st_key x) UpAsync :: body (modifier_key sh ct m) (needs x) l.
Proof.
  intros SI M OM. unfold string_input. cbn [type_input].
  inversion OM as [|? ? (R & NM & N1 & N2 & MX) OR]; subst.
  pose proof (sided_body sh ct m l SI M OR (st_mods x) MX) as IH.
  destruct (type_input false l (st_mods x) false) as [rest last].
  rewrite <- app_assoc, sided_app. f_equal.
  change ([ev0 (st_key x) Down; ev0 (st_key x) UpAsync] ++ rest)
    with ([ev0 (st_key x) Down] ++ [ev0 (st_key x) UpAsync] ++ rest).
  rewrite <- !app_assoc, !sided_app, !sided_stroke by assumption. rewrite <- sided_app, IH. reflexivity.
Qed.
Lemma modifier_key_in sh ct m : sides sh ct -> one_bit m -> In (modifier_key sh ct m) modifier_keys.
Proof. intros [[->| ->] [->| ->]] [->|[->|[->| ->]]]; cbn; tauto. Qed.
Lemma modifier_real k : In k modifier_keys -> real_key k.
Proof. intro H. repeat (destruct H as [<-|H]; [unfold real_key; vm_compute; repeat split; discriminate || reflexivity|]). contradiction. Qed.

(** Nots at the front *)
Lemma acc_nots ks : forall ex sq a n, (forall k, In k ks -> real_key k) ->
  (match sq with [] => True | se :: _ => real_key (ek se) /\ (es se = Up \/ es se = Down /\ ~ In (ek se) (n ++ ks)) end) ->
  acc ex sq a (n ++ ks) -> acc (map (fun k => ev0 k Not) ks ++ ex) sq a n.
Proof.
  induction ks as [|k ks IH]; intros ex sq a n R NX H; cbn [map app].
  - rewrite app_nil_r in H. exact H.
  - apply acc_not.
    + intro Q. specialize (R k (or_introl eq_refl)). pose proof (real_not_timeout _ R) as Q2. subst k. discriminate Q2.
    + destruct sq as [|se sq]; [exact Logic.I|]. cbn [next_ok]. destruct NX as [A [B|[B C]]]; split; auto.
      right. split; [exact B|]. intro Q. apply C. apply in_app_iff. left. exact Q.
    + apply IH; [intros j Hj; apply R; right; exact Hj| |rewrite <- app_assoc; exact H].
      destruct sq as [|se sq]; [exact Logic.I|]. rewrite <- app_assoc. exact NX.
Qed.
Lemma mods_first sh ct m cur : sides sh ct -> one_bit m -> cur = 0 \/ cur = m ->
  exists before after,
    incl (before ++ after) modifier_keys /\
    sided sh ct (flat_map (type_input_mod cur 0 true) mod_keys)
    = map (fun k => ev0 k Not) before
      ++ (if negb (cur =? 0) then [ev0 (modifier_key sh ct m) DownAsync; ev0 (modifier_key sh ct m) Down] else [])
      ++ map (fun k => ev0 k Not) after /\
    (negb (cur =? 0) = true -> ~ In (modifier_key sh ct m) (before ++ after)).
Proof.
  intros SI M [C|C]; rewrite C.
  - exists modifier_keys, []. split; [intros k Hk; rewrite app_nil_r in Hk; exact Hk|]. split; [|intro Q; discriminate Q].
    destruct SI as [[->| ->] [->| ->]]; reflexivity.
  - destruct M as [->|[->|[->| ->]]].
    + exists [], [AltLeft; AltRight; ControlLeft; ControlRight]. split; [intros k Hk; cbn in *; tauto|].
      split; [destruct SI as [[->| ->] [->| ->]]; reflexivity|]. intros _ Q.
      destruct SI as [[->| ->] _]; cbn in Q; repeat (destruct Q as [Q|Q]; [discriminate Q|]); exact Q.
    + exists [ShiftLeft; ShiftRight], [AltRight; ControlLeft; ControlRight]. split; [intros k Hk; cbn in *; tauto|].
      split; [destruct SI as [[->| ->] [->| ->]]; reflexivity|]. intros _ Q.
      cbn in Q; repeat (destruct Q as [Q|Q]; [discriminate Q|]); exact Q.
    + exists [ShiftLeft; ShiftRight; AltLeft], [ControlLeft; ControlRight]. split; [intros k Hk; cbn in *; tauto|].
      split; [destruct SI as [[->| ->] [->| ->]]; reflexivity|]. intros _ Q.
      cbn in Q; repeat (destruct Q as [Q|Q]; [discriminate Q|]); exact Q.
    + exists [ShiftLeft; ShiftRight; AltLeft; AltRight], []. split; [intros k Hk; cbn in *; tauto|].
      split; [destruct SI as [[->| ->] [->| ->]]; reflexivity|]. intros _ Q.
      destruct SI as [_ [->| ->]]; cbn in Q; repeat (destruct Q as [Q|Q]; [discriminate Q|]); exact Q.
Qed.

Theorem typed_accepted sh ct m l sq : sides sh ct -> one_bit m -> l <> [] -> one_modifier m l ->
  typed (modifier_key sh ct m) l sq -> acc (sided sh ct (string_input false l)) sq [] [].
Proof.
  intros SI M NE OM TY. destruct l as [|x l]; [contradiction|]. clear NE.
  rewrite (sided_string sh ct m) by assumption.
  pose proof (modifier_key_in sh ct m SI M) as MI. pose proof (modifier_real _ MI) as MR.
  set (mk := modifier_key sh ct m) in *.
  assert (LL : Forall (fun y => letter (st_key y)) (x :: l)).
  { eapply Forall_impl; [|exact OM]. cbn beta. intros y (A & B & _). split; assumption. }
  pose proof (Forall_inv LL) as LX.
  pose proof (Forall_inv OM) as (_ & _ & _ & _ & MX).
  destruct (mods_first sh ct m (st_mods x) SI M MX) as (bf & af & IN & EQ & NI). rewrite EQ. clear EQ.
  rewrite <- !app_assoc.
  assert (RB : forall k, In k bf -> real_key k) by (intros k Hk; apply modifier_real, IN, in_app_iff; auto).
  assert (RF : forall k, In k af -> real_key k) by (intros k Hk; apply modifier_real, IN, in_app_iff; auto).
  fold mk in NI |- *. change (negb (st_mods x =? 0)) with (needs x) in *.
  destruct (needs x) eqn:NX.
  - (* with the modifier *)
    unfold typed in TY. inversion TY; subst; try congruence.
    { destruct p; discriminate. }
    match goal with HT : types mk true true true [] (x :: l) ?s |- _ => rename HT into H; rename s into sq' end.
    assert (NB : ~ In mk bf) by (intro Q; apply NI; [reflexivity|apply in_app_iff; auto]).
    assert (NF : ~ In mk af) by (intro Q; apply NI; [reflexivity|apply in_app_iff; auto]).
    apply acc_nots; [exact RB| |].
    { split; [exact MR|right; split; [reflexivity|exact NB]]. }
    cbn [app]. apply acc_push; [left; reflexivity|split; [exact MR|right; split; [reflexivity|exact NB]]|].
    apply acc_down; [exact MR|].
    assert (QA : without mk [ev0 mk DownAsync] = []).
    { unfold without. cbn [List.filter ek ev0]. rewrite N.eqb_refl. reflexivity. }
    cbn [app]. rewrite QA.
    assert (NNB : incl (remove_key mk bf ++ af) modifier_keys).
    { intros k Hk. apply in_app_iff in Hk. destruct Hk as [Hk|Hk]; [apply remove_key_In in Hk; destruct Hk as [Hk _]|]; apply IN, in_app_iff; auto. }
    apply acc_nots; [exact RF| |].
    { inversion H; subst.
      - destruct p; discriminate.
      - split; [apply LX|right; split; [reflexivity|]]. intro Q. apply LX. apply NNB. exact Q. }
    pose proof (types_match mk MR MI _ _ _ _ _ _ H [] (remove_key mk bf ++ af)) as G.
    cbn [remains] in G. rewrite NX in G. cbn [app] in G. apply G. split; auto.
    + split; [intros ? []|intros ? []].
    + intros _ Q. apply in_app_iff in Q. destruct Q as [Q|Q]; [apply remove_key_In in Q; destruct Q as [_ Q]|]; contradiction.
    + intros ? [].
    + constructor.
    + intros. exact Logic.I.
    + intros ? ? _ Q. discriminate Q.
  - (* without *)
    unfold typed in TY.
    cbn [app]. rewrite app_assoc, <- map_app. apply acc_nots.
    + intros k Hk. apply modifier_real, IN, Hk.
    + inversion TY; subst; try congruence.
      { destruct p; discriminate. }
      split; [apply LX|right; split; [reflexivity|]]. intro Q. apply LX. apply IN. exact Q.
    + pose proof (types_match mk MR MI _ _ _ _ _ _ TY [] (bf ++ af)) as G.
      cbn [remains] in G. rewrite NX in G. cbn [app] in G. apply G. split; auto.
      * split; [intros ? []|intros ? []].
      * intros ? [].
      * constructor.
      * intros. exact Logic.I.
      * intros ? ? _ _ Q. discriminate Q.
Qed.

(** * Not before the last key *)
Definition wants (e : event) : Prop := real_key (ek e) /\ (is_letter (ek e) = true -> es e = Down \/ es e = UpAsync).
Definition quiet (a : list event) : Prop :=
  forall x, In x a -> real_key (ek x) /\ (is_letter (ek x) = true -> es x = Up \/ es x = UpAsync \/ es x = UpMatched).
Definition stroke_event (e : event) : bool := is_letter (ek e) && is_press (es e).

Lemma quiet_pair k prev a : is_letter k = true -> quiet a -> unmatched_async_pair k prev a = false.
Proof.
  intro L. revert prev. induction a as [|x a IH]; intros prev Q; [reflexivity|]. cbn [unmatched_async_pair].
  destruct (event_eqb_spec x (ev0 k DownAsync)) as [E|_].
  - subst x. destruct (Q _ (or_introl eq_refl)) as [_ H]. destruct (H L) as [H'|[H'|H']]; discriminate H'.
  - apply IH. intros y Hy. apply Q. right. exact Hy.
Qed.
Lemma step_presses ee se at_end m ae as_ m' : wants ee -> real_key (ek se) \/ se = matches_none -> quiet (ms_async m) ->
  match_step ee se at_end m = MGo ae as_ m' ->
  quiet (ms_async m') /\ (ae = true -> stroke_event ee = true -> as_ = true /\ stroke_event se = true).
Proof.
  intros [RE WE] RS QA. unfold match_step.
  set (nots := match es ee with Down => _ | _ => _ end). cbv zeta. cbn [ms_async ms_not ms_ign ms_any ms_nmm ms_e ms_down].
  assert (SD : stroke_event ee = true -> is_letter (ek ee) = true /\ es ee = Down).
  { unfold stroke_event. intro Q. apply andb_true_iff in Q. destruct Q as [Q1 Q2]. split; [exact Q1|].
    destruct (WE Q1) as [E|E]; [exact E|rewrite E in Q2; discriminate Q2]. }
  destruct (_ && mem_key (ek se) nots); [discriminate|].
  destruct (kstate_eqb (es ee) DownAsync || kstate_eqb (es ee) UpAsync) eqn:C1.
  { intro Q. injection Q as <- <- <-. cbn [ms_async]. split.
    - intros x Hx. apply in_app_iff in Hx. destruct Hx as [Hx|[<-|[]]]; [apply QA; exact Hx|]. split; [exact RE|].
      intro L. destruct (WE L) as [E|E]; [|auto]. rewrite E in C1. discriminate C1.
    - intros _ S1. destruct (SD S1) as [_ E]. rewrite E in C1. discriminate C1. }
  destruct (kstate_eqb (es ee) Not && _) eqn:C2.
  { intro Q. injection Q as <- <- <-. cbn [ms_async]. split; [exact QA|].
    intros _ S1. destruct (SD S1) as [_ E]. rewrite E in C2. discriminate C2. }
  rewrite (real_not_any _ RE). cbn [andb].
  destruct (unif_event se ee) eqn:C3.
  { intro Q. injection Q as <- <- <-. cbn [ms_async]. split.
    - intros x Hx. apply filter_In in Hx. apply QA. apply Hx.
    - intros _ S1. split; [reflexivity|]. destruct (SD S1) as [L E]. destruct RS as [RS|RS].
      + rewrite unif_event_real in C3 by assumption. apply andb_true_iff in C3. destruct C3 as [K U].
        apply N.eqb_eq in K. unfold stroke_event. rewrite K, L, E in *. cbn [andb]. destruct (es se); try discriminate U; reflexivity.
      + subst se. unfold unif_event, unif_key in C3. cbn in C3. rewrite andb_false_r in C3. discriminate C3. }
  rewrite (real_not_timeout _ RE). cbn [andb negb].
  destruct (kstate_eqb (es ee) NoMightMatch) eqn:C4.
  { intro Q. injection Q as <- <- <-. cbn [ms_async]. split; [exact QA|].
    intros _ S1. destruct (SD S1) as [_ E]. rewrite E in C4. discriminate C4. }
  destruct (ms_nmm m && event_eqb ee matches_none); [discriminate|].
  destruct (find_index _ (ms_async m)) as [i|] eqn:F1.
  { intro Q. injection Q as <- <- <-. cbn [ms_async]. split; [|intro Q; discriminate Q].
    apply StageOut.find_index_split in F1. destruct F1 as (p & x & q & EA & FX & _ & _ & _ & UP). rewrite UP.
    intros y Hy. apply in_app_iff in Hy. cbn [In] in Hy. destruct Hy as [Hy|[Hy|Hy]].
    - apply QA. rewrite EA. apply in_app_iff. auto.
    - subst y. destruct (QA x) as [RX LX]; [rewrite EA; apply in_app_iff; cbn; auto|]. cbn [set_es ek es]. split; [exact RX|].
      intro L. apply andb_true_iff in FX. destruct FX as [FX _].
      destruct (LX L) as [E|[E|E]]; rewrite E in FX; destruct (es se); try discriminate FX; auto.
    - apply QA. rewrite EA. apply in_app_iff. cbn. auto. }
  destruct (kstate_eqb (es se) DownMatched || _).
  { intro Q. injection Q as <- <- <-. cbn [ms_async]. split; [exact QA|intro Q; discriminate Q]. }
  destruct (find_index (fun x => unif_event ee x) (ms_async m)) as [i|] eqn:F2.
  { intro Q. injection Q as <- <- <-. cbn [ms_async].
    apply StageOut.find_index_split in F2. destruct F2 as (p & x & q & EA & FX & _ & _ & RM & _). rewrite RM. split.
    - intros y Hy. apply QA. rewrite EA. apply in_app_iff in Hy. apply in_app_iff. cbn. tauto.
    - intros _ S1. destruct (SD S1) as [L E]. destruct (QA x) as [RX LX]; [rewrite EA; apply in_app_iff; cbn; auto|].
      rewrite unif_event_real in FX by assumption. apply andb_true_iff in FX. destruct FX as [K U]. apply N.eqb_eq in K.
      rewrite <- K in LX. rewrite E in U. destruct (LX L) as [Q|[Q|Q]]; rewrite Q in U; discriminate U. }
  destruct (kstate_eqb (es ee) Down && unmatched_async_pair (ek ee) None (ms_async m)) eqn:C5.
  { intro Q. injection Q as <- <- <-. cbn [ms_async]. split; [exact QA|].
    intros _ S1. destruct (SD S1) as [L E]. rewrite (quiet_pair _ _ _ L QA), andb_false_r in C5. discriminate C5. }
  destruct (_ && ms_down m).
  { intro Q. injection Q as <- <- <-. cbn [ms_async]. split; [exact QA|intro Q; discriminate Q]. }
  destruct (ms_nmm m && Nat.eqb (ms_e m) 1).
  { destruct (negb (event_eqb se matches_none)); [|discriminate].
    intro Q. injection Q as <- <- <-. cbn [ms_async]. split; [exact QA|intro Q; discriminate Q]. }
  destruct (_ && mem_key (ek se) (ms_ign m)); [|discriminate].
  intro Q. injection Q as <- <- <-. cbn [ms_async]. split; [exact QA|intro Q; discriminate Q].
Qed.
Lemma strokes_cons e l : strokes_of (e :: l) = ((if stroke_event e then 1 else 0) + strokes_of l)%nat.
Proof. unfold strokes_of, stroke_event. cbn [List.filter]. destruct (_ && _); reflexivity. Qed.
Lemma loop_presses fuel : forall ex sq m anys t, Forall wants ex -> quiet (ms_async m) -> Forall (fun e => real_key (ek e)) sq ->
  match_loop fuel ex sq m = Some (Matched, anys, t) -> (strokes_of ex <= strokes_of sq)%nat.
Proof.
  induction fuel as [|fuel IH]; intros ex sq m anys t WE QA RS H.
  - destruct ex, sq; try discriminate H. apply Nat.le_refl.
  - destruct ex as [|ee ex]; [apply Nat.le_0_l|]. rewrite match_loop_cons in H.
    destruct (match_step _ _ _ _) as [r t'|ae as_ m'] eqn:ST.
    { injection H as -> _ _. exfalso. revert ST. unfold match_step.
      repeat match goal with
      | |- context [if ?b then _ else _] => destruct b; try discriminate
      | |- context [match find_index ?f ?l with _ => _ end] => destruct (find_index f l); try discriminate
      end. }
    apply step_presses in ST; [|inversion WE; assumption| |exact QA].
    2:{ destruct sq as [|se sq]; [right; reflexivity|left]. inversion RS; assumption. }
    destruct ST as [QA' SE].
    assert (L : (strokes_of (tl_if ae (ee :: ex)) <= strokes_of (tl_if as_ sq))%nat).
    { apply (IH _ _ m' anys t); [| exact QA'| |exact H].
      - destruct ae; cbn [tl_if tl]; [inversion WE; assumption|exact WE].
      - destruct as_; [|exact RS]. cbn [tl_if]. destruct sq; [exact RS|]. inversion RS; assumption. }
    rewrite strokes_cons in *. destruct ae; cbn [tl_if tl] in L.
    + destruct (stroke_event ee) eqn:SQ.
      * destruct (SE eq_refl eq_refl) as [-> S2]. cbn [tl_if] in L. destruct sq as [|se sq]; [discriminate S2|].
        cbn [hd] in S2. cbn [tl] in L. rewrite strokes_cons, S2. lia.
      * destruct as_; cbn [tl_if] in L; [|lia]. destruct sq as [|se sq]; cbn [tl] in L; [lia|]. rewrite strokes_cons. lia.
    + rewrite strokes_cons in L. destruct as_; cbn [tl_if] in L; [|lia].
      destruct sq as [|se sq]; cbn [tl] in L; [lia|]. rewrite (strokes_cons se). lia.
Qed.

(** * The expression of any string *)
Definition letters (l : list stroke) : Prop :=
  Forall (fun x => letter (st_key x) /\ st_key x <> first_logical /\ st_key x <> first_logical + 1) l.
Definition modifier_events (l : sequence) : Prop := Forall (fun e => In (ek e) (map snd mod_keys)) l.
Lemma sided_cons sh ct e l : sided sh ct (e :: l) = sided sh ct [e] ++ sided sh ct l.
Proof. change (e :: l) with ([e] ++ l). apply sided_app. Qed.
Lemma sided_modifiers sh ct l : sides sh ct -> modifier_events l -> Forall (fun e => In (ek e) modifier_keys) (sided sh ct l).
Proof.
  intros SI. induction l as [|e l IH]; intro H; [constructor|]. inversion H as [|? ? HE HL]; subst.
  rewrite sided_cons. apply Forall_app. split; [|apply IH; exact HL]. clear IH H HL.
  destruct e as [k s v]. cbn [ek] in HE. unfold sided, replace_not_key, replace_key. cbn [flat_map map app ek es ev].
  destruct HE as [<-|[<-|[<-|[<-|[]]]]]; destruct SI as [[->| ->] [->| ->]]; destruct s; cbn;
    repeat (apply Forall_cons; [cbn; tauto|]); constructor.
Qed.
Lemma modifier_not_letter k : In k modifier_keys -> is_letter k = false.
Proof. intro H. unfold is_letter. apply negb_false_iff. apply existsb_exists. exists k. split; [exact H|apply N.eqb_refl]. Qed.
Lemma letter_is k : letter k -> is_letter k = true.
Proof. intros [_ H]. unfold is_letter. apply negb_true_iff. apply (mem_key_false k modifier_keys). exact H. Qed.
Lemma modifiers_want l : Forall (fun e => In (ek e) modifier_keys) l -> Forall wants l /\ strokes_of l = 0%nat.
Proof.
  induction l as [|e l IH]; intro H; [split; [constructor|reflexivity]|]. inversion H as [|? ? HE HL]; subst.
  destruct (IH HL) as [A B]. pose proof (modifier_not_letter _ HE) as NL. split.
  - constructor; [|exact A]. split; [apply modifier_real; exact HE|]. rewrite NL. intro Q. discriminate Q.
  - rewrite strokes_cons. unfold stroke_event. rewrite NL. exact B.
Qed.
Lemma strokes_app x y : strokes_of (x ++ y) = (strokes_of x + strokes_of y)%nat.
Proof. unfold strokes_of. rewrite filter_app, app_length. reflexivity. Qed.
Lemma mods_are_modifiers cur prev first : modifier_events (flat_map (type_input_mod cur prev first) mod_keys).
Proof.
  apply Forall_forall. intros e He. apply in_flat_map in He. destruct He as ([b k] & Hk & He).
  assert (Q : ek e = k).
  { unfold type_input_mod in He. destruct (has_bits b cur); [destruct (has_bits b prev)|destruct first, (xorb false (has_bits b prev))];
      cbn in He; repeat (destruct He as [He|He]; [rewrite <- He; reflexivity|]); contradiction. }
  rewrite Q. apply in_map_iff. exists (b, k). auto.
Qed.
Lemma release_are_modifiers s prev : modifier_events (release_mods s prev).
Proof.
  apply Forall_forall. intros e He. apply in_flat_map in He. destruct He as ([b k] & Hk & He).
  cbn [fst snd] in He. destruct (has_bits b prev); [|contradiction]. destruct He as [<-|[]]. cbn [ek ev0].
  apply in_map_iff. exists (b, k). auto.
Qed.
Lemma string_wants sh ct l : sides sh ct -> letters l -> forall prev first,
  let '(sq, last) := type_input false l prev first in
  Forall wants (sided sh ct sq) /\ strokes_of (sided sh ct sq) = length l.
Proof.
  intros SI. induction l as [|x l IH]; intros LL prev first; cbn [type_input].
  - split; [constructor|reflexivity].
  - inversion LL as [|? ? (LX & N1 & N2) LR]; subst. specialize (IH LR (st_mods x) false).
    destruct (type_input false l (st_mods x) false) as [rest last]. destruct IH as [A B].
    change ([ev0 (st_key x) Down; ev0 (st_key x) UpAsync] ++ rest)
      with ([ev0 (st_key x) Down] ++ [ev0 (st_key x) UpAsync] ++ rest).
    rewrite !sided_app, !sided_stroke by assumption.
    destruct (modifiers_want _ (sided_modifiers sh ct _ SI (mods_are_modifiers (st_mods x) prev first))) as [C D].
    split.
    + apply Forall_app. split; [exact C|]. constructor; [|constructor; [|exact A]]; split; try apply LX; intros _; cbn; auto.
    + rewrite !strokes_app, D, B. cbn [length]. rewrite !strokes_cons. unfold stroke_event. cbn [ek es ev0].
      rewrite (letter_is _ LX). cbn. reflexivity.
Qed.
Theorem string_not_early sh ct l sq f anys t : sides sh ct -> letters l -> Forall (fun e => real_key (ek e)) sq ->
  (strokes_of sq < length l)%nat ->
  match_loop f (sided sh ct (string_input false l)) sq ms_init <> Some (Matched, anys, t).
Proof.
  intros SI LL RS LT H. unfold string_input in H. pose proof (string_wants sh ct l SI LL 0 true) as W.
  destruct (type_input false l 0 true) as [ts last]. destruct W as [A B]. rewrite sided_app in H.
  destruct (modifiers_want _ (sided_modifiers sh ct _ SI (release_are_modifiers UpAsync last))) as [C D].
  apply loop_presses in H; [|apply Forall_app; split; assumption|intros ? []|exact RS].
  rewrite strokes_app, B, D in H. lia.
Qed.

(** * Modifiers which must not be held *)
Lemma loop_nots a pre : forall f ex sq m r anys t, Forall (fun k => real_key k) pre -> In a pre ->
  Forall (fun e => ~ (ek e = a /\ es e = Down)) ex -> real_key a -> mem_key k_none (ms_ign m) = false -> no_none sq ->
  match_loop f (map (fun k => ev0 k Not) pre ++ ex) sq m = Some (r, anys, t) -> r <> NoMatch ->
  Forall (fun e => ~ (ek e = a /\ is_down_state (es e) = true)) sq.
Proof.
  assert (GO : forall k se b m ae as_ m', match_step (ev0 k Not) se b m = MGo ae as_ m' -> real_key k ->
    ae = true /\ as_ = false /\ ms_not m' = ms_not m ++ [k] /\ ms_ign m' = ms_ign m).
  { intros k se b m ae as_ m' H RK. unfold match_step in H. cbn [es ev0 ek ms_not ms_async ms_ign ms_any ms_nmm ms_e ms_down kstate_eqb orb] in H.
    rewrite (real_not_timeout _ RK) in H. cbn [negb andb] in H. destruct (_ && mem_key _ _); [discriminate H|].
    injection H as <- <- <-. auto. }
  induction pre as [|k pre IH]; intros f ex sq m r anys t RP IN EX RA IG NN H NM; [contradiction|].
  cbn [map app] in H. destruct f as [|f]; [destruct sq; discriminate H|]. rewrite match_loop_cons in H.
  inversion RP as [|? ? RK RP']; subst.
  destruct (match_step _ _ _ _) as [r' t'|ae as_ m'] eqn:ST.
  - injection H as -> _ _. exfalso. apply NM. unfold match_step in ST.
    cbn [es ev0 ek ms_not kstate_eqb orb] in ST. rewrite (real_not_timeout _ RK) in ST. cbn [negb andb] in ST.
    destruct (_ && mem_key _ _); [congruence|discriminate ST].
  - destruct (GO _ _ _ _ _ _ _ ST RK) as (-> & -> & NQ & IQ). cbn [tl_if tl] in H.
    destruct (N.eq_dec k a) as [E|E].
    + subst k. eapply (match_loop_not a); [|  | | |exact NN|exact H|exact NM].
      * rewrite NQ. apply in_or_app. right. left. reflexivity.
      * apply Forall_app. split; [|exact EX]. apply Forall_forall. intros e He. apply in_map_iff in He.
        destruct He as (j & <- & _). intros [_ Q]. discriminate Q.
      * intro Q. subst a. destruct RA as [RA _]. contradiction || (cbn in *; congruence).
      * rewrite IQ. exact IG.
    + destruct IN as [IN|IN]; [contradiction|]. apply (IH f ex sq m' r anys t); auto. rewrite IQ. exact IG.
Qed.
Lemma body_downs mk a l : a <> mk -> Forall (fun x => st_key x <> a) l -> forall h,
  Forall (fun e => ~ (ek e = a /\ es e = Down)) (body mk h l).
Proof.
  intros NE LA. induction l as [|x l IH]; intro h; cbn [body].
  - destruct h; constructor; [intros [_ Q]; discriminate Q|constructor].
  - inversion LA as [|? ? LX LR]; subst. apply Forall_app. split.
    + destruct h, (needs x); cbn [switch]; repeat (constructor; [cbn; intros [Q1 Q2]; congruence|]); constructor.
    + constructor; [cbn; intros [Q1 Q2]; congruence|]. constructor; [cbn; intros [Q1 Q2]; congruence|]. apply IH. exact LR.
Qed.
Theorem string_other_modifier sh ct m a x l f sq r anys t : sides sh ct -> one_bit m -> one_modifier m (x :: l) ->
  needs x = false -> In a modifier_keys -> a <> modifier_key sh ct m -> no_none sq ->
  match_loop f (sided sh ct (string_input false (x :: l))) sq ms_init = Some (r, anys, t) ->
  (exists e, In e sq /\ ek e = a /\ is_press (es e) = true) -> r = NoMatch.
Proof.
  intros SI M OM NX IA NA NN H (e & He & KE & PE).
  destruct r; [reflexivity| |]; exfalso.
  all: rewrite (sided_string sh ct m) in H by assumption.
  all: assert (MX : st_mods x = 0) by (apply negb_false_iff in NX; apply N.eqb_eq; exact NX).
  all: assert (EQ : sided sh ct (flat_map (type_input_mod (st_mods x) 0 true) mod_keys) = map (fun k => ev0 k Not) modifier_keys)
    by (rewrite MX; destruct SI as [[->| ->] [->| ->]]; reflexivity).
  all: rewrite EQ in H.
  all: assert (LA : Forall (fun y => st_key y <> a) (x :: l))
    by (eapply Forall_impl; [|exact OM]; cbn beta; intros y (_ & B & _) Q; apply B; rewrite Q; exact IA).
  all: apply (loop_nots a) in H; [| |exact IA| |apply modifier_real; exact IA|reflexivity|exact NN|discriminate].
  all: try (rewrite Forall_forall in H; apply (H e He); split; [exact KE|]; destruct (es e); try discriminate PE; reflexivity).
  all: try (apply Forall_forall; intros k Hk; apply modifier_real; exact Hk).
  all: inversion LA as [|? ? LX LR]; subst; constructor; [cbn; intros [Q1 Q2]; congruence|];
       constructor; [cbn; intros [Q1 Q2]; congruence|]; apply body_downs; assumption.
Qed.

(** The keys of the expression *)
Lemma string_keys l : Forall (fun e => In (ek e) (map snd mod_keys) \/ exists x, In x l /\ ek e = st_key x) (string_input false l).
Proof.
  unfold string_input.
  assert (G : forall k prev first, incl k l ->
    Forall (fun e => In (ek e) (map snd mod_keys) \/ exists x, In x l /\ ek e = st_key x) (fst (type_input false k prev first))).
  { induction k as [|x k IH]; intros prev first IN; cbn [type_input]; [constructor|].
    specialize (IH (st_mods x) false (fun y Hy => IN y (or_intror Hy))).
    destruct (type_input false k (st_mods x) false) as [rest last]. cbn [fst] in *.
    apply Forall_app. split; [eapply Forall_impl; [|apply mods_are_modifiers]; cbn beta; auto|].
    assert (IX : In x l) by (apply IN; left; reflexivity).
    constructor; [right; exists x; auto|]. constructor; [right; exists x; auto|exact IH]. }
  specialize (G l 0 true (incl_refl l)). destruct (type_input false l 0 true) as [sq last]. cbn [fst] in G.
  apply Forall_app. split; [exact G|]. eapply Forall_impl; [|apply release_are_modifiers]. cbn beta. auto.
Qed.
Lemma string_presses x l : In (ev0 (st_key x) Down) (string_input false (x :: l)).
Proof.
  unfold string_input. cbn [type_input]. destruct (type_input false l (st_mods x) false) as [rest last].
  apply in_app_iff. left. apply in_app_iff. right. left. reflexivity.
Qed.
Lemma string_states l : no_nmm (string_input false l).
Proof.
  unfold string_input, no_nmm.
  assert (G : forall k prev first, Forall (fun e => es e <> NoMightMatch) (fst (type_input false k prev first))).
  { induction k as [|x k IH]; intros prev first; cbn [type_input]; [constructor|].
    specialize (IH (st_mods x) false). destruct (type_input false k (st_mods x) false) as [rest last]. cbn [fst] in *.
    apply Forall_app. split; [|repeat (constructor; [discriminate|]); exact IH].
    apply Forall_forall. intros e He. apply in_flat_map in He. destruct He as ([b mk] & _ & He). unfold type_input_mod in He.
    destruct (has_bits b (st_mods x)); [destruct (has_bits b prev)|destruct first, (xorb false (has_bits b prev))];
      cbn in He; repeat (destruct He as [He|He]; [rewrite <- He; discriminate|]); contradiction. }
  specialize (G l 0 true). destruct (type_input false l 0 true) as [sq last]. cbn [fst] in G.
  apply Forall_app. split; [exact G|]. apply Forall_forall. intros e He. apply in_flat_map in He.
  destruct He as ([b mk] & _ & He). cbn [fst snd] in He. destruct (has_bits b last); [|contradiction].
  destruct He as [<-|[]]. discriminate.
Qed.
Lemma sided_states sh ct l : no_nmm l -> no_nmm (sided sh ct l).
Proof.
  assert (A : forall b k l, no_nmm l -> no_nmm (replace_key b k l)).
  { intros b k s H. apply Forall_forall. intros e He. apply in_map_iff in He. destruct He as (x & <- & Hx).
    apply Forall_forall with (2 := Hx) in H. destruct (ek x =? b); exact H. }
  assert (B : forall b x y l, no_nmm l -> no_nmm (replace_not_key b x y l)).
  { intros b x y s H. apply Forall_forall. intros e He. apply in_flat_map in He. destruct He as (z & Hz & He).
    apply Forall_forall with (2 := Hz) in H.
    destruct (_ && _); [destruct He as [<-|[<-|[]]]; [discriminate|exact H]|destruct He as [<-|[]]; exact H]. }
  intro H. unfold sided. auto.
Qed.
