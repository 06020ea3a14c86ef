(** The matcher on negated keys and on Any. *)
From Coq Require Import List NArith Bool Lia.
From Verif Require Import Base Key Match MatchProofs MatchSpec MatchLang.
Import ListNotations.
Local Open Scope N_scope.

(** * Negated keys (C06) *)

Definition is_down_state (s : kstate) : bool :=
  match s with Down | DownMatched => true | _ => false end.

Lemma step_not a ee se b m ae as_ m' :
  In a (ms_not m) -> ~ (ek ee = a /\ es ee = Down) ->
  match_step ee se b m = MGo ae as_ m' ->
  In a (ms_not m') /\ ~ (ek se = a /\ is_down_state (es se) = true).
Proof.
  intros Ha Hne H.
  assert (Hn : In a (match es ee with Down => remove_key (ek ee) (ms_not m) | _ => ms_not m end)).
  { destruct (es ee) eqn:E; auto. apply remove_key_In. split; auto. }
  unfold match_step in H. cbn [ms_not] in H.
  destruct ((kstate_eqb (es se) Down || kstate_eqb (es se) DownMatched)
     && mem_key (ek se) (match es ee with Down => remove_key (ek ee) (ms_not m) | _ => ms_not m end)) eqn:C;
    [discriminate|].
  assert (G : ~ (ek se = a /\ is_down_state (es se) = true)).
  { intros [<- D]. apply mem_key_In in Hn. rewrite Hn, andb_true_r in C.
    destruct (es se); discriminate. }
  split; [|exact G].
  step_cases H; cbn [ms_not]; auto.
  apply in_or_app; auto.
Qed.

Lemma match_loop_not a fuel : forall ex sq m r anys t,
  In a (ms_not m) -> Forall (fun e => ~ (ek e = a /\ es e = Down)) ex ->
  a <> k_none -> mem_key k_none (ms_ign m) = false -> no_none sq ->
  match_loop fuel ex sq m = Some (r, anys, t) -> r <> NoMatch ->
  Forall (fun e => ~ (ek e = a /\ is_down_state (es e) = true)) sq.
Proof.
  induction fuel as [|fuel IH]; intros ex sq m r anys t Ha Hex Hnn Hi Hno H Hr.
  - destruct ex, sq; cbn in H; try discriminate. constructor.
  - destruct sq as [|se sq]; [constructor|].
    rewrite match_loop_step in H by (right; discriminate). cbn [hd] in H.
    destruct (match_step _ _ _ _) as [r0 t0|ae as_ m'] eqn:E.
    + injection H as <- <- <-. exfalso. apply Hr. clear - E Hno.
      unfold match_step in E. step_cases E; auto.
      apply andb_prop in Heqb4. destruct Heqb4 as [_ E]. apply event_eqb_eq in E. subst se.
      inversion Hno; subst. cbn in *. congruence.
    + assert (Hh : ~ (ek (hd matches_none ex) = a /\ es (hd matches_none ex) = Down)).
      { destruct ex; cbn; [intros [? _]; congruence|]. inversion Hex; auto. }
      destruct (step_not a _ _ _ _ _ _ _ Ha Hh E) as [Ha' G].
      assert (Hi' : mem_key k_none (ms_ign m') = false).
      { inversion Hno; subst. destruct (step_ign _ _ _ _ _ _ _ E) as [->| ->]; auto.
        rewrite mem_key_app, Hi, mem_key_one; auto. }
      assert (Hex' : Forall (fun e => ~ (ek e = a /\ es e = Down)) (tl_if ae ex)).
      { destruct ae; cbn; auto. destruct ex; cbn; auto. inversion Hex; auto. }
      destruct as_; cbn [tl_if tl] in H.
      * constructor; auto. inversion Hno; subst. eapply IH; eauto.
      * eapply IH; eauto.
Qed.

(** While [!a] stands in front of an expression not using [a], a history with [a]
    down (used by another mapping or not) is rejected. *)
Theorem match_negated a v ex sq r anys t :
  a <> k_none -> a <> k_timeout ->
  Forall (fun e => ~ (ek e = a /\ es e = Down)) ex ->
  no_none sq ->
  match_keys (Ev a Not v :: ex) sq = Some (r, anys, t) ->
  (exists e, In e sq /\ ek e = a /\ (es e = Down \/ es e = DownMatched)) ->
  r = NoMatch.
Proof.
  intros Hn Ht Hex Hno H (e & He & Hk & Hd).
  destruct r; auto; exfalso.
  all: unfold match_keys in H; cbn [length Nat.add] in H; rewrite match_loop_cons in H;
    assert (S : forall se b, match_step (Ev a Not v) se b ms_init
                 = MGo true false (MS [] [a] [] [] false 1 false)) by
    (intros se b; unfold match_step, ms_init; cbn; rewrite andb_false_r;
     apply N.eqb_neq in Ht; rewrite Ht; reflexivity).
  all: rewrite S in H; cbn [tl_if tl] in H.
  all: apply (match_loop_not a) in H; auto; try discriminate; [|left; reflexivity].
  all: rewrite Forall_forall in H; apply (H e He); split; auto; destruct Hd as [-> | ->]; reflexivity.
Qed.

(** * Any (C07) *)

Lemma unif_key_any k : k <> k_any -> unif_key k k_any = is_keyboard_key k.
Proof.
  intros H. unfold unif_key. apply N.eqb_neq in H. rewrite H.
  destruct (N.eqb_spec k k_none) as [->|]; [reflexivity|].
  destruct (N.eqb_spec k k_timeout) as [->|]; [reflexivity|].
  change (k_any =? k_none) with false. change (k_any =? k_timeout) with false.
  change (k_any =? k_any) with true. cbn. destruct (is_keyboard_key k); reflexivity.
Qed.

Lemma step_any ee se b m ae as_ m' :
  ek se <> k_any ->
  match_step ee se b m = MGo ae as_ m' ->
  ms_any m' = ms_any m \/
  (ms_any m' = ms_any m ++ [ek se] /\ is_keyboard_key (ek se) = true /\ es se = Down /\ as_ = true).
Proof.
  intros Hs H. unfold match_step in H. cbn [ms_any ms_not ms_async ms_nmm] in H.
  step_cases H; cbn [ms_any]; auto.
  destruct ((ek ee =? k_any) && kstate_eqb (es se) Down) eqn:C; auto.
  right. apply andb_prop in C. destruct C as [C1 C2]. apply N.eqb_eq in C1.
  apply kstate_eqb_eq in C2. repeat split; auto.
  unfold unif_event in Heqb4. rewrite C1 in Heqb4.
  destruct ((ek se =? k_any) && _); [discriminate|].
  destruct (_ && kstate_eqb (es se) DownMatched); [discriminate|].
  rewrite unif_key_any in Heqb4 by auto.
  destruct (is_keyboard_key (ek se)); [reflexivity|discriminate].
Qed.

Lemma match_loop_any fuel : forall ex sq m r anys t,
  no_none sq -> mem_key k_none (ms_ign m) = false ->
  Forall (fun e => ek e <> k_any) sq ->
  match_loop fuel ex sq m = Some (r, anys, t) ->
  exists l, anys = ms_any m ++ l /\
    Forall (fun k => is_keyboard_key k = true /\ exists v, In (Ev k Down v) sq) l.
Proof.
  induction fuel as [|fuel IH]; intros ex sq m r anys t Hno Hi Hs H.
  - destruct ex, sq; cbn in H; try discriminate. injection H as <- <- <-.
    exists []. rewrite app_nil_r. auto.
  - assert (HD : (ex = [] /\ sq = []) \/ (ex <> [] \/ sq <> []))
      by (destruct ex, sq; auto; right; try (left; discriminate); right; discriminate).
    destruct HD as [[-> ->]|HD].
    { injection H as <- <- <-. exists []. rewrite app_nil_r. auto. }
    rewrite match_loop_step in H by exact HD.
    destruct (match_step _ _ _ _) as [r0 t0|ae as_ m'] eqn:E.
    { injection H as <- <- <-. exists []. rewrite app_nil_r. auto. }
    assert (Hh : ek (hd matches_none sq) <> k_any).
    { destruct sq; [discriminate|]. inversion Hs; auto. }
    assert (Hi' : mem_key k_none (ms_ign m') = false).
    { destruct sq as [|se sq].
      - apply step_at_end in E; auto. destruct E as (_ & _ & ->). auto.
      - inversion Hno; subst. destruct (step_ign _ _ _ _ _ _ _ E) as [->| ->]; auto.
        rewrite mem_key_app, Hi, mem_key_one; auto. }
    assert (Hno' : no_none (tl_if as_ sq)).
    { destruct as_, sq; cbn; auto. inversion Hno; auto. }
    assert (Hs' : Forall (fun e => ek e <> k_any) (tl_if as_ sq)).
    { destruct as_, sq; cbn; auto. inversion Hs; auto. }
    destruct (IH _ _ _ _ _ _ Hno' Hi' Hs' H) as (l & Hl & Hf).
    assert (Hf' : Forall (fun k => is_keyboard_key k = true /\ exists v, In (Ev k Down v) sq) l).
    { eapply Forall_impl; [|exact Hf]. intros k [K (v & V)]. split; auto. exists v.
      destruct as_, sq; cbn in *; auto. }
    destruct (step_any _ _ _ _ _ _ _ Hh E) as [Ea|(Ea & K & D & ->)].
    { exists l. rewrite Hl, Ea. auto. }
    exists (ek (hd matches_none sq) :: l). rewrite Hl, Ea, <- app_assoc. split; auto.
    constructor; auto. split; auto.
    destruct sq as [|[k s v] sq]; [discriminate K|]. cbn in *. subst s. exists v. left; auto.
Qed.

(** The keys reported for Any are pressed keyboard keys. *)
Theorem match_any_keys ex sq r anys t :
  no_none sq -> Forall (fun e => ek e <> k_any) sq ->
  match_keys ex sq = Some (r, anys, t) ->
  Forall (fun k => is_keyboard_key k = true /\ exists v, In (Ev k Down v) sq) anys.
Proof.
  intros Hno Hs H. apply match_loop_any in H; auto.
  destruct H as (l & -> & Hf). exact Hf.
Qed.

(** The expression [Any] matches the press of every keyboard key and of nothing
    else, and reports that key. *)
Theorem match_any_press k v :
  k <> k_none -> k <> k_any ->
  match_keys [ev0 k_any Down; ev0 k_any UpAsync] [Ev k Down v] =
  if is_keyboard_key k then Some (Matched, [k], None) else Some (NoMatch, [], None).
Proof.
  intros Hn Ha. unfold match_keys. cbn [length Nat.add]. rewrite match_loop_cons.
  cbn [hd]. unfold match_step, ev0. cbn [ms_not ms_init es ek remove_key filter mem_key existsb].
  rewrite andb_false_r. cbn [kstate_eqb orb andb].
  assert (U : unif_event (Ev k Down v) (Ev k_any Down 0) = is_keyboard_key k).
  { unfold unif_event. cbn [ek es]. rewrite unif_key_any by auto.
    rewrite andb_false_r. change (k_any =? k_any) with true. cbn [andb kstate_eqb].
    destruct (is_keyboard_key k) eqn:K; [|reflexivity]. cbn [negb].
    destruct (N.eqb_spec k k_timeout) as [->|]; [discriminate K|reflexivity]. }
  rewrite U. change (k_any =? k_any) with true. cbn [andb].
  destruct (is_keyboard_key k).
  - cbn [tl_if tl]. rewrite match_loop_cons. reflexivity.
  - change (k_any =? k_timeout) with false. cbn.
    destruct (k =? k_timeout); reflexivity.
Qed.

(** * Releasing Any (C07) *)

Lemma step_no_async ee se b m ae as_ m' :
  ms_async m = [] -> es ee <> DownAsync -> es ee <> UpAsync ->
  match_step ee se b m = MGo ae as_ m' -> ms_async m' = [].
Proof.
  intros Ha H1 H2 H. unfold match_step in H. cbn [ms_async] in H. rewrite Ha in H.
  step_cases H; cbn [ms_async]; auto; try discriminate.
  all: exfalso; destruct (es ee); try discriminate; auto.
Qed.

Lemma step_any_up ee se b m ae as_ m' :
  ms_async m = [] -> ek ee = k_any -> es ee = Up -> ek se <> k_any ->
  (es se = UpMatched -> is_keyboard_key (ek se) = false) ->
  match_step ee se b m = MGo ae as_ m' -> ae = true ->
  as_ = true /\ es se = Up /\ In (ek se) (ms_any m) /\ ms_any m' = ms_any m.
Proof.
  intros Ha Ek Es Hs Hm H. unfold match_step in H. cbn [ms_async ms_any] in H.
  rewrite Ha, Ek, Es in H. cbn [kstate_eqb orb andb negb] in H.
  change (k_any =? k_timeout) with false in H. change (k_any =? k_any) with true in H.
  cbn [kstate_eqb orb andb negb find_index] in H.
  step_cases H; cbn [ms_any]; try discriminate; intros Hae; try discriminate Hae.
  - apply mem_key_In in Heqb2. apply andb_prop in Heqb1. destruct Heqb1 as [_ E].
    apply kstate_eqb_eq in E. auto.
  - exfalso. unfold unif_event in Heqb2. rewrite Ek, Es in Heqb2.
    destruct ((ek se =? k_any) && _); [discriminate|].
    destruct (_ && kstate_eqb (es se) DownMatched); [discriminate|].
    rewrite unif_key_any in Heqb2 by auto.
    destruct (is_keyboard_key (ek se)) eqn:K; [|discriminate]. cbn [negb] in Heqb2.
    assert (K0 : ek se <> k_none) by (intros E; rewrite E in K; discriminate K).
    assert (Kt : ek se =? k_timeout = false).
    { apply N.eqb_neq. intros E; rewrite E in K; discriminate K. }
    rewrite Kt in Heqb2. apply N.eqb_neq in K0. rewrite K0 in Heqb1. cbn [negb andb] in Heqb1.
    unfold unif_state in Heqb2. destruct (es se) eqn:E; try discriminate. specialize (Hm eq_refl). discriminate.
Qed.

Lemma step_any_mono ee se b m ae as_ m' k :
  match_step ee se b m = MGo ae as_ m' -> In k (ms_any m) -> In k (ms_any m').
Proof.
  intros H Hk. unfold match_step in H. cbn [ms_any] in H. step_cases H; cbn [ms_any]; auto.
  destruct ((ek ee =? k_any) && kstate_eqb (es se) Down); auto. apply in_or_app. auto.
Qed.

Lemma match_loop_any_mono fuel : forall ex sq m r anys t k,
  match_loop fuel ex sq m = Some (r, anys, t) -> In k (ms_any m) -> In k anys.
Proof.
  induction fuel as [|fuel IH]; intros ex sq m r anys t k H Hk.
  - destruct ex, sq; cbn in H; try discriminate. injection H as <- <- <-. auto.
  - assert (HD : (ex = [] /\ sq = []) \/ (ex <> [] \/ sq <> []))
      by (destruct ex, sq; auto; right; try (left; discriminate); right; discriminate).
    destruct HD as [[-> ->]|HD]. { injection H as <- <- <-. auto. }
    rewrite match_loop_step in H by exact HD.
    destruct (match_step _ _ _ _) as [r0 t0|ae as_ m'] eqn:E.
    { injection H as <- <- <-. auto. }
    eapply IH; [exact H|]. eapply step_any_mono; eauto.
Qed.

Lemma match_loop_any_up fuel : forall pre a post sq m anys t,
  Forall (fun e => es e <> DownAsync /\ es e <> UpAsync) pre -> ek a = k_any -> es a = Up ->
  Forall (fun e => ek e <> k_any /\ (es e = UpMatched -> is_keyboard_key (ek e) = false)) sq ->
  ms_async m = [] ->
  match_loop fuel (pre ++ a :: post) sq m = Some (Matched, anys, t) ->
  exists k v, In k anys /\ In (Ev k Up v) sq.
Proof.
  induction fuel as [|fuel IH]; intros pre a post sq m anys t Hpre Hk Hs Hsq Ha H.
  - destruct pre, sq; cbn in H; discriminate.
  - assert (Hse : ek (hd matches_none sq) <> k_any /\
                  (es (hd matches_none sq) = UpMatched -> is_keyboard_key (ek (hd matches_none sq)) = false)).
    { destruct sq; [split; discriminate|]. inversion Hsq; auto. }
    assert (Hsq' : forall b, Forall (fun e => ek e <> k_any /\ (es e = UpMatched -> is_keyboard_key (ek e) = false))
                           (tl_if b sq)).
    { intros []; destruct sq; cbn; auto. inversion Hsq; auto. }
    assert (Hin : forall b x, In x (tl_if b sq) -> In x sq).
    { intros [] x; destruct sq; cbn; auto. }
    rewrite match_loop_step in H by (left; destruct pre; discriminate).
    destruct pre as [|p pre].
    + cbn [app hd] in H. destruct (match_step _ _ _ _) as [r0 t0|ae as_ m'] eqn:E.
      { injection H as E0 _ _. subst r0. unfold match_step in E.
        step_cases E; try discriminate. destruct (match sq with [] => true | _ => false end); discriminate. }
      destruct ae.
      * destruct (step_any_up _ _ _ _ _ _ _ Ha Hk Hs (proj1 Hse) (proj2 Hse) E eq_refl) as (-> & Eu & Hi & Em).
        destruct sq as [|[k s v] sq]; [exfalso; cbn in E |].
        { unfold match_step in E. rewrite Hk, Hs in E. cbn [matches_none ek es ms_async] in E. rewrite Ha in E.
          cbn in E. step_cases E; try discriminate. }
        cbn in Eu, Hi. subst s. exists k, v. split; [|left; auto].
        eapply match_loop_any_mono; [exact H|]. rewrite Em. exact Hi.
      * cbn [tl_if] in H.
        destruct (IH [] a post (tl_if as_ sq) m' anys t) with (6 := H) as (k & v & H1 & H2); auto.
        { eapply step_no_async; [exact Ha| | |exact E]; rewrite Hs; discriminate. }
        exists k, v. split; auto. eapply Hin; exact H2.
    + apply Forall_cons_iff in Hpre. destruct Hpre as [[Hp1 Hp2] Hpre]. cbn [app hd] in H.
      destruct (match_step _ _ _ _) as [r0 t0|ae as_ m'] eqn:E.
      { injection H as E0 _ _. subst r0. unfold match_step in E.
        step_cases E; try discriminate. destruct (match sq with [] => true | _ => false end); discriminate. }
      assert (Ha' : ms_async m' = []) by (eapply step_no_async; eauto).
      destruct ae; cbn [tl_if tl] in H.
      * destruct (IH pre a post (tl_if as_ sq) m' anys t) with (6 := H) as (k & v & H1 & H2); auto.
        exists k, v. split; auto. eapply Hin; exact H2.
      * destruct (IH (p :: pre) a post (tl_if as_ sq) m' anys t) with (6 := H) as (k & v & H1 & H2); auto.
        exists k, v. split; auto. eapply Hin; exact H2.
Qed.

(** An expression asking for the release of Any only matches when one of the keys
    reported for Any was released. *)
Theorem match_any_up pre a post sq anys t :
  Forall (fun e => es e <> DownAsync /\ es e <> UpAsync) pre -> ek a = k_any -> es a = Up ->
  Forall (fun e => ek e <> k_any /\ (es e = UpMatched -> is_keyboard_key (ek e) = false)) sq ->
  match_keys (pre ++ a :: post) sq = Some (Matched, anys, t) ->
  exists k v, In k anys /\ In (Ev k Up v) sq.
Proof.
  intros H1 H2 H3 H4 H. unfold match_keys in H.
  exact (match_loop_any_up _ _ _ _ _ ms_init _ _ H1 H2 H3 H4 eq_refl H).
Qed.
