(** Parsed outputs (C36): releases follow presses, states, keys. *)
From Coq Require Import String Ascii List NArith ZArith Bool Lia.
From Verif Require Import Base Key Text TextSpec TextProofs Match ParseSeq ParseProofs ParseSpec
  StageSpec.
Import ListNotations.
Local Open Scope N_scope.

(** * Balance with or without forgetting at ^ *)

Section Balance.
Variable reset : bool.

Fixpoint bal (p : list key) (l : sequence) : Prop :=
  match l with
  | [] => True
  | e :: r =>
      match es e with
      | Down => bal (ek e :: p) r
      | Up => In (ek e) p /\ bal p r
      | OutputOnRelease => bal (if reset then [] else p) r
      | _ => bal p r
      end
  end.
Fixpoint since (p : list key) (l : sequence) : list key :=
  match l with
  | [] => p
  | e :: r => match es e with
              | Down => since (ek e :: p) r
              | OutputOnRelease => since (if reset then [] else p) r
              | _ => since p r
              end
  end.

Lemma bal_app : forall a b p, bal p (a ++ b) <-> bal p a /\ bal (since p a) b.
Proof.
  induction a as [|e a IH]; intros b p; [cbn; tauto|].
  cbn [app bal since]. destruct (es e); try apply IH. rewrite IH. tauto.
Qed.
Lemma since_app : forall a b p, since p (a ++ b) = since (since p a) b.
Proof.
  induction a as [|e a IH]; intros b p; [reflexivity|].
  cbn [app since]. destruct (es e); apply IH.
Qed.

Lemma since_downs : forall ks p, since p (map (fun k => ev0 k Down) ks) = rev ks ++ p.
Proof.
  induction ks as [|k ks IH]; intros p; [reflexivity|]. cbn [map since es ev0]. rewrite IH.
  cbn [rev ek ev0]. now rewrite <- app_assoc.
Qed.
Lemma since_ups : forall ks p, since p (map (fun k => ev0 k Up) ks) = p.
Proof. induction ks as [|k ks IH]; intros p; [reflexivity|]. cbn [map since es ev0]. apply IH. Qed.
Lemma bal_downs : forall ks p, bal p (map (fun k => ev0 k Down) ks).
Proof. induction ks as [|k ks IH]; intros p; [exact I|]. cbn [map bal es ev0]. apply IH. Qed.
Lemma bal_ups : forall ks p, (forall k, In k ks -> In k p) -> bal p (map (fun k => ev0 k Up) ks).
Proof.
  induction ks as [|k ks IH]; intros p H; [exact I|]. cbn [map bal es ev0 ek]. split.
  - apply H. now left.
  - apply IH. intros x Hx. apply H. now right.
Qed.

(** Typed strings: the modifiers held are known to be pressed. *)
Definition mods_known (prev : N) (p : list key) : Prop :=
  forall m k, In (m, k) mod_keys -> has_bits m prev = true -> In k p.

Lemma since_incl_str : forall l p, Forall (fun e => es e <> OutputOnRelease) l ->
  incl p (since p l).
Proof.
  induction l as [|e l IH]; intros p F; [apply incl_refl|]. inversion_clear F as [|? ? He Fl].
  cbn [since]. destruct (es e) eqn:Es; try (now apply IH); try contradiction.
  eapply incl_tran; [|apply IH; exact Fl]. apply incl_tl, incl_refl.
Qed.

Lemma type_mod_ok : forall mods prev m k p,
  (has_bits m prev = true -> In k p) ->
  let s := type_output_mod mods prev (m, k) in
  bal p s /\ (has_bits m mods = true -> In k (since p s)).
Proof.
  intros mods prev m k p H. unfold type_output_mod. destruct (has_bits m mods), (has_bits m prev);
    cbn; auto.
Qed.

Lemma type_mods_ok : forall mods prev ml p,
  (forall m k, In (m, k) ml -> has_bits m prev = true -> In k p) ->
  let s := flat_map (type_output_mod mods prev) ml in
  bal p s /\ incl p (since p s)
  /\ (forall m k, In (m, k) ml -> has_bits m mods = true -> In k (since p s)).
Proof.
  induction ml as [|[m k] ml IH]; intros p H.
  - cbn. repeat split; [apply incl_refl|easy].
  - cbn [flat_map]. destruct (type_mod_ok mods prev m k p (H m k (or_introl eq_refl))) as [B K].
    assert (I1 : incl p (since p (type_output_mod mods prev (m, k)))).
    { apply since_incl_str. unfold type_output_mod.
      destruct (has_bits m mods), (has_bits m prev); cbn; repeat constructor; discriminate. }
    destruct (IH (since p (type_output_mod mods prev (m, k)))) as [B2 [I2 K2]].
    { intros m' k' Hi Hb. apply I1. exact (H m' k' (or_intror Hi) Hb). }
    cbn zeta. rewrite since_app. repeat split.
    + apply bal_app. now split.
    + eapply incl_tran; eassumption.
    + intros m' k' [E|Hi] Hb; [injection E as <- <-; apply I2, K, Hb|now apply (K2 m')].
Qed.

Lemma type_output_ok : forall l prev p, mods_known prev p ->
  bal p (fst (type_output l prev))
  /\ mods_known (snd (type_output l prev)) (since p (fst (type_output l prev)))
  /\ incl p (since p (fst (type_output l prev))).
Proof.
  induction l as [|x l IH]; intros prev p M.
  - cbn. repeat split; [exact M|apply incl_refl].
  - cbn [type_output].
    destruct (type_mods_ok (st_mods x) prev mod_keys p M) as [B [I1 K]]. cbn zeta in *.
    set (ms := flat_map (type_output_mod (st_mods x) prev) mod_keys) in *.
    set (tk := [Ev (st_key x) Down (st_value x); Ev (st_key x) Up (st_value x)]).
    destruct (IH (st_mods x) (st_key x :: since p ms)) as [B2 [M2 I2]].
    { intros m k Hi Hb. right. exact (K m k Hi Hb). }
    destruct (type_output l (st_mods x)) as [rest q]. cbn [fst snd] in *.
    assert (S1 : since p (ms ++ tk ++ rest) = since (st_key x :: since p ms) rest).
    { rewrite !since_app. reflexivity. }
    rewrite S1. repeat split.
    + apply bal_app. split; [exact B|]. apply bal_app. split; [|exact B2].
      cbn. split; [now left|exact I].
    + exact M2.
    + eapply incl_tran; [exact I1|]. eapply incl_tran; [|exact I2]. apply incl_tl, incl_refl.
Qed.

Lemma release_mods_ok : forall ml prev p,
  (forall m k, In (m, k) ml -> has_bits m prev = true -> In k p) ->
  let s := flat_map (fun mk : N * key => if has_bits (fst mk) prev then [ev0 (snd mk) Up] else []) ml in
  bal p s /\ since p s = p.
Proof.
  induction ml as [|[m k] ml IH]; intros prev p H; [now split|]. cbn [flat_map fst snd].
  destruct (IH prev p) as [B E]. { intros m' k' Hi. apply H. now right. }
  cbn zeta in *. rewrite since_app, bal_app.
  destruct (has_bits m prev) eqn:Hb; cbn [bal since es ev0 ek].
  - repeat split; [apply (H m k); [now left|exact Hb]|exact B|exact E].
  - now repeat split.
Qed.

Lemma string_output_ok : forall g l p,
  bal p (string_output g l) /\ incl p (since p (string_output g l)).
Proof.
  intros g l p. unfold string_output.
  destruct (type_output_ok l 0 p) as [B [M I1]]. { intros m k _ H. now rewrite (N.land_0_l m) in H || cbn in H. }
  destruct (type_output l 0) as [sq prev]. cbn [fst snd] in *.
  destruct (release_mods_ok mod_keys prev (since p sq) M) as [B2 E2]. cbn zeta in *.
  fold (release_mods Up prev) in *.
  assert (G : bal p (sq ++ release_mods Up prev) /\ incl p (since p (sq ++ release_mods Up prev))).
  { rewrite bal_app, since_app, E2. auto. }
  destruct g; cbn [app bal since es ev0]; exact G.
Qed.

(** * The parser state *)

(** The keys not yet released were pressed (after the last ^). *)
Record obal (p : pstate) : Prop := OB {
  ob_bal : bal [] (p_seq p);
  ob_pressed : forall k, In k (p_pressed p) -> In k (since [] (p_seq p))
}.

Lemma fold_remove_in : forall b l (k : key), In k (fold_left (fun l k => remove_key k l) b l) -> In k l.
Proof.
  induction b as [|x b IH]; intros l k H; [exact H|]. apply IH in H. unfold remove_key in H.
  now apply filter_In in H.
Qed.

Lemma flush_obal : forall up p, obal p ->
  obal (flush_key_buffer false up p)
  /\ (up = true -> incl (p_pressed (flush_key_buffer false up p)) (p_pressed p)).
Proof.
  intros up p [B P]. unfold flush_key_buffer. destruct up; cbn; split.
  - split; cbn.
    + apply bal_app. rewrite bal_app, since_app, since_downs. repeat split; [exact B|apply bal_downs|].
      apply bal_ups. intros k Hk. apply in_or_app. left. now apply in_rev in Hk.
    + intros k Hk. rewrite !since_app, since_downs, since_ups. apply in_or_app. right.
      apply P. exact (fold_remove_in _ _ _ Hk).
  - intros _ k Hk. exact (fold_remove_in _ _ _ Hk).
  - split; cbn.
    + rewrite bal_app. split; [exact B|apply bal_downs].
    + intros k Hk. rewrite since_app, since_downs. apply in_or_app. apply in_app_or in Hk.
      destruct Hk as [Hk|Hk]; [right; now apply P|left; now apply -> in_rev].
  - discriminate.
Qed.

Lemma firstn_in : forall {A} n (l : list A) x, In x (firstn n l) -> In x l.
Proof.
  intros A n l x H. rewrite <- (firstn_skipn n l). apply in_or_app. now left.
Qed.
Lemma skipn_in : forall {A} n (l : list A) x, In x (skipn n l) -> In x l.
Proof.
  intros A n l x H. rewrite <- (firstn_skipn n l). apply in_or_app. now right.
Qed.

Lemma release_obal : forall n p, obal p -> obal (release_pressed_keys false n p).
Proof.
  intros n p [B P]. unfold release_pressed_keys. split; cbn.
  - rewrite bal_app. split; [exact B|]. apply bal_ups. intros k Hk. apply P.
    apply in_rev in Hk. exact (skipn_in _ _ _ Hk).
  - intros k Hk. rewrite since_app, since_ups. apply P. exact (firstn_in _ _ _ Hk).
Qed.

Lemma add_obal : forall e p, (es e = Down \/ es e = Not) -> obal p ->
  obal (add_event e p).
Proof.
  intros e p He [B P]. split; cbn.
  - rewrite bal_app. split; [exact B|]. destruct He as [E|E]; cbn; rewrite E; exact I.
  - intros k Hk. rewrite since_app. cbn. destruct He as [E|E]; rewrite E; [right|]; now apply P.
Qed.

Lemma since_mono : forall l p q, incl p q -> incl (since p l) (since q l).
Proof.
  induction l as [|e l IH]; intros p q H; [exact H|]. cbn [since].
  destruct (es e); try (apply IH; exact H).
  - apply IH. intros x [E|Hx]; [now left|right; now apply H].
  - apply IH. destruct reset; [apply incl_refl|exact H].
Qed.

Lemma back_split : forall {A} (l : list A) e, back l = Some e -> l = pop_back l ++ [e].
Proof.
  intros A l e H. unfold back, pop_back in *. destruct (rev l) as [|x r] eqn:E; [discriminate|].
  injection H as ->. assert (l = rev r ++ [e]) as ->.
  { rewrite <- (rev_involutive l), E. reflexivity. }
  now rewrite removelast_last.
Qed.

Lemma timeout_obal : forall v n c p p', add_timeout_event false v n c p = POk p' -> obal p ->
  obal p' /\ incl (p_pressed p') (p_pressed p).
Proof.
  intros v n c p p' H Ob. unfold add_timeout_event in H. cbn [andb negb] in H.
  destruct (flush_obal true p Ob) as [F In1]. specialize (In1 eq_refl).
  set (q := flush_key_buffer false true p) in *.
  destruct n; [discriminate|].
  destruct (back (p_seq q)) as [e|] eqn:Bk.
  - destruct ((ek e =? k_timeout) && kstate_eqb (es e) Down) eqn:C.
    + injection H as <-. split; [|exact In1].
      apply andb_prop in C as [C1 C2]. apply N.eqb_eq in C1.
      assert (es e = Down) as C3 by (now destruct (es e)).
      apply back_split in Bk. destruct F as [B P]. rewrite Bk in B, P.
      apply bal_app in B. rewrite since_app in P. cbn [since] in P. rewrite C3 in P.
      split; cbn.
      * apply bal_app. split; [apply B|exact I].
      * intros k Hk. rewrite since_app. cbn. rewrite <- C1. now apply P.
    + injection H as <-. split; [|exact In1]. apply add_obal; [now left|exact F].
  - injection H as <-. split; [|exact In1]. apply add_obal; [now left|exact F].
Qed.

Lemma not_key_obal : forall k p p', parse_not_key false k p = POk p' -> obal p -> obal p'.
Proof.
  intros k p p' H Ob. unfold parse_not_key in H. cbn [andb] in H.
  destruct (flush_obal false p Ob) as [F _]. unfold remove_from_pressed in H.
  rewrite andb_false_r in H. injection H as <-. apply add_obal; [now right|].
  destruct F as [B P]. split; [exact B|]. cbn. intros x Hx. apply P.
  unfold remove_key in Hx. now apply filter_In in Hx.
Qed.

End Balance.

Lemma bal_true : forall l p, bal true p l -> balanced p l.
Proof.
  induction l as [|e l IH]; intros p H; [exact I|]. cbn [bal balanced] in *.
  destruct (es e); try (apply IH; exact H). destruct H. split; auto.
Qed.

Lemma bal_presses : forall l p a e b, bal false p l -> l = a ++ e :: b -> es e = Up ->
  In (ek e) p \/ exists v, In (Ev (ek e) Down v) a.
Proof.
  induction l as [|x l IH]; intros p a e b B E U; [now destruct a|].
  destruct a as [|y a].
  - injection E as -> ->. cbn [bal] in B. rewrite U in B. left. apply B.
  - injection E as -> ->. cbn [bal] in B.
    assert (G : (exists q, bal false q (a ++ e :: b) /\ (q = p \/ (q = ek y :: p /\ es y = Down)))).
    { destruct (es y) eqn:Ey; try (exists p; split; [exact B|now left]).
      - exists p. split; [apply B|now left].
      - exists (ek y :: p). split; [exact B|now right]. }
    destruct G as [q [Bq Q]]. destruct (IH q a e b Bq eq_refl U) as [Hi|[v Hv]].
    + destruct Q as [->|[-> Ey]]; [now left|]. destruct Hi as [Hi|Hi]; [|now left].
      right. exists (ev y). left. rewrite <- Hi, <- Ey. now destruct y.
    + right. exists v. now right.
Qed.
Lemma bal_presses_first : forall l, bal false [] l -> presses_first l.
Proof.
  intros l B a e b E U. destruct (bal_presses l [] a e b B E U) as [[]|H]. exact H.
Qed.

(** * Every round keeps the balance *)

Section Rounds.
Variable gk : text -> key.
Variable ty : text -> list stroke.
Variable ck : option (nat -> key).

Lemma move_obal : forall reset it p p', move false gk ty ck it p p' ->
  (reset = true -> In "^"%char it -> p_modified p = 0%nat -> p_pressed p = []) ->
  obal reset p -> obal reset p'.
Proof.
  intros reset it p p' M R Ob. destruct (flush_obal reset true p Ob) as [F Fi].
  specialize (Fi eq_refl).
  destruct M as [v n p' _ _ _ H|k p' _ _ _ H|s _|t _ _ _|_ _ M0 _ C|E _ _ _ _|_|_|_ _|m b bs _ _|k _].
  - exact (proj1 (timeout_obal reset v n _ p p' H Ob)).
  - exact (not_key_obal reset k p p' H Ob).
  - destruct F as [B P]. split; cbn [p_seq p_set_hasmod p_set_seq p_pressed].
    + apply bal_app. split; [exact B|apply string_output_ok].
    + intros k Hk. rewrite since_app. apply (proj2 (string_output_ok reset _ _ _)). now apply P.
  - cbn zeta. destruct ck as [f|]; [|exact F].
    assert (G : obal reset (add_event (ev0 (f (length (p_cmds (flush_key_buffer false true p)))) Down)
                              (flush_key_buffer false true p))).
    { apply add_obal; [now left|exact F]. }
    destruct G as [B P]. split; [exact B|exact P].
  - destruct F as [B P]. split; cbn [p_seq p_set_onrel add_event p_set_seq p_pressed].
    + apply bal_app. split; [exact B|exact I].
    + intros k Hk. rewrite since_app. cbn [since es ev0]. destruct reset; [|now apply P].
      apply Fi in Hk. now rewrite (R eq_refl C M0) in Hk.
  - discriminate E.
  - destruct F as [B P]. split; [exact B|exact P].
  - destruct Ob as [B P]. split; [exact B|exact P].
  - cbn zeta.
    assert (Ob' : obal reset (p_set_before (length (p_pressed p) :: p_before p) p)).
    { destruct Ob as [B P]. split; [exact B|exact P]. }
    destruct (flush_obal reset false _ Ob') as [[B P] _]. split; [exact B|exact P].
  - cbn zeta. destruct (release_obal reset b _ F) as [B P]. split; [exact B|exact P].
  - cbn zeta. destruct (p_together p); [destruct Ob as [B P]|destruct F as [B P]];
      (split; [exact B|exact P]).
Qed.

(** Without `!`, keys stay pressed only within modifier groups. *)
Record stk (p : pstate) : Prop := Stk {
  sk_length : length (p_before p) = p_modified p;
  sk_bottom : p_before p = [] \/ last (p_before p) 1%nat = 0%nat;
  sk_none : p_modified p = 0%nat -> p_pressed p = []
}.

Lemma fold_remove_nil : forall b : list key, fold_left (fun l k => remove_key k l) b [] = [].
Proof. induction b as [|x b IH]; [reflexivity|exact IH]. Qed.

Lemma flush_true_stk : forall p, stk p -> stk (flush_key_buffer false true p).
Proof.
  intros p [L B Z]. split; [exact L|exact B|]. cbn. intros E. rewrite (Z E). apply fold_remove_nil.
Qed.

Lemma move_stk : forall it p p', move false gk ty ck it p p' -> ~ In "!"%char it ->
  stk p -> stk p'.
Proof.
  intros it p p' M NB Sk. pose proof (flush_true_stk p Sk) as F.
  destruct M as [v n p' _ _ _ H|k p' _ _ C H|s _|t _ _ _|_ _ M0 _ C|E _ _ _ _|_|_|_ _|m b bs Em Eb|k _].
  - unfold add_timeout_event in H. cbn [andb negb] in H. destruct n; [discriminate|].
    destruct (back _) as [e|]; [destruct (_ && _)|]; injection H as <-;
      (destruct F as [L B Z]; split; [exact L|exact B|exact Z]).
  - contradiction.
  - destruct F as [L B Z]. split; [exact L|exact B|exact Z].
  - cbn zeta. destruct ck as [f|]; [|exact F]. destruct F as [L B Z].
    split; [exact L|exact B|exact Z].
  - destruct F as [L B Z]. split; [exact L|exact B|exact Z].
  - discriminate E.
  - destruct F as [L B Z]. split; [exact L|exact B|exact Z].
  - destruct Sk as [L B Z]. split; [exact L|exact B|exact Z].
  - destruct Sk as [L B Z]. split; cbn.
    + now rewrite L.
    + right. destruct (p_before p) as [|x r] eqn:Eb.
      * cbn in L. symmetry in L. now rewrite (Z L).
      * destruct B as [B|B]; [discriminate|exact B].
    + discriminate.
  - destruct F as [L B Z].
    change (p_before (flush_key_buffer false true p)) with (p_before p) in *.
    rewrite Eb in L, B. cbn in L.
    change (p_modified (flush_key_buffer false true p)) with (p_modified p) in *. rewrite Em in L.
    injection L as L. split; cbn.
    + exact L.
    + destruct bs as [|y r]; [now left|right]. destruct B as [B|B]; [discriminate|exact B].
    + intros Em0. subst m. destruct bs; [|discriminate]. destruct B as [B|B]; [discriminate|].
      cbn in B. subst b. reflexivity.
  - cbn zeta. destruct (p_together p); [destruct Sk as [L B Z]|destruct F as [L B Z]];
      (split; [exact L|exact B|exact Z]).
Qed.

(** * The end of the parser *)

Lemma drop_state_suffix : forall st l, exists a, l = a ++ drop_state st l.
Proof.
  induction l as [|e l IH]; [now exists []|]. cbn [drop_state].
  destruct (kstate_eqb (es e) st); [|now exists []].
  destruct IH as [a E]. exists (e :: a). cbn. now rewrite <- E.
Qed.
Lemma remove_end_prefix : forall st l, exists b, l = remove_all_from_end st l ++ b.
Proof.
  intros st l. unfold remove_all_from_end. destruct (drop_state_suffix st (rev l)) as [a E].
  exists (rev a). rewrite <- rev_app_distr, <- E. now rewrite rev_involutive.
Qed.

Lemma end_output : forall p l, parse_end false p = POk l ->
  p_modified p = 0%nat /\
  (exists b, p_seq (release_pressed_keys false 0 p) = l ++ b) /\
  Forall (fun e => ek e <> k_ContextActive) l.
Proof.
  intros p l H. unfold parse_end in H. destruct (p_together p); [discriminate|].
  destruct (Nat.ltb_spec 0 (p_modified p)) as [Lt|Ge]; [discriminate|].
  split; [lia|]. cbn [andb] in H.
  set (q := release_pressed_keys false 0 p) in *.
  match type of H with
  | (if ?c then _ else check_context_active _ (p_seq ?x)) = _ => destruct c; [discriminate|]; set (z := x) in *
  end.
  assert (E : exists b, p_seq q = p_seq z ++ b).
  { subst z. destruct (_ && _); [apply remove_end_prefix|]. exists []. now rewrite app_nil_r. }
  unfold check_context_active in H. cbn [negb] in H.
  destruct (existsb _ (p_seq z)) eqn:X; [discriminate|]. injection H as <-.
  split; [exact E|]. apply Forall_forall. intros e He C.
  enough (existsb (fun e => ek e =? k_ContextActive) (p_seq z) = true) by congruence.
  apply existsb_exists. exists e. split; [exact He|now apply N.eqb_eq].
Qed.

(** Every event is of a kind [Q] if those the rounds add are; [Q] may depend on the
    number of terminal commands. *)
Section Events.
Variable Q : nat -> event -> Prop.
Hypothesis Q_mono : forall n m e, (n <= m)%nat -> Q n e -> Q m e.
Hypothesis Q_key : forall n k st, named gk k -> (st = Down \/ st = Up \/ st = Not) -> Q n (ev0 k st).
Hypothesis Q_timeout : forall n v, Q n (Ev k_timeout Down v).
Hypothesis Q_onrel : forall n, Q n (ev0 k_none OutputOnRelease).
Hypothesis Q_string : forall n g s, Forall (Q n) (string_output g (ty s)).
Hypothesis Q_command : forall f n, ck = Some f -> Q (S n) (ev0 (f n) Down).

Record okp (p : pstate) : Prop := OP {
  op_seq : Forall (Q (length (p_cmds p))) (p_seq p);
  op_buffer : Forall (named gk) (p_buffer p);
  op_pressed : Forall (named gk) (p_pressed p)
}.

Lemma keys_Q : forall n st ks, (st = Down \/ st = Up \/ st = Not) -> Forall (named gk) ks ->
  Forall (Q n) (map (fun k => ev0 k st) ks).
Proof.
  intros n st ks Hs H. rewrite Forall_map. eapply Forall_impl; [|exact H]. intros k Hk.
  now apply Q_key.
Qed.
Lemma remove_Forall : forall (P : key -> Prop) k l, Forall P l -> Forall P (remove_key k l).
Proof.
  intros P k l H. unfold remove_key. rewrite Forall_forall in *. intros x Hx.
  apply filter_In in Hx. now apply H.
Qed.
Lemma fold_remove_Forall : forall (P : key -> Prop) b l, Forall P l ->
  Forall P (fold_left (fun l k => remove_key k l) b l).
Proof.
  intros P. induction b as [|x b IH]; intros l H; [exact H|]. cbn [fold_left].
  now apply IH, remove_Forall.
Qed.

Lemma flush_okp : forall up p, okp p -> okp (flush_key_buffer false up p).
Proof.
  intros up p [A B C]. unfold flush_key_buffer. destruct up; cbn; split; cbn.
  - rewrite !Forall_app. repeat split; [exact A|apply keys_Q; auto|apply keys_Q; auto].
  - constructor.
  - now apply fold_remove_Forall.
  - rewrite Forall_app. split; [exact A|apply keys_Q; auto].
  - constructor.
  - rewrite Forall_app. now split.
Qed.
Lemma Forall_firstn : forall {A} (P : A -> Prop) n l, Forall P l -> Forall P (firstn n l).
Proof.
  intros A P n l H. rewrite <- (firstn_skipn n l) in H. now apply Forall_app in H.
Qed.
Lemma Forall_skipn : forall {A} (P : A -> Prop) n l, Forall P l -> Forall P (skipn n l).
Proof.
  intros A P n l H. rewrite <- (firstn_skipn n l) in H. now apply Forall_app in H.
Qed.
Lemma release_okp : forall n p, okp p -> okp (release_pressed_keys false n p).
Proof.
  intros n p [A B C]. unfold release_pressed_keys. split; cbn.
  - rewrite Forall_app. split; [exact A|]. apply keys_Q; [auto|]. apply Forall_rev, Forall_skipn, C.
  - exact B.
  - apply Forall_firstn, C.
Qed.
Lemma add_okp : forall e p, Q (length (p_cmds p)) e -> okp p -> okp (add_event e p).
Proof.
  intros e p He [A B C]. split; [|exact B|exact C]. cbn. rewrite Forall_app. split; [exact A|auto].
Qed.

Lemma move_okp : forall it p p', move false gk ty ck it p p' -> okp p -> okp p'.
Proof.
  intros it p p' M Ob. pose proof (flush_okp true p Ob) as F.
  destruct M as [v n p' _ _ _ H|k p' K _ _ H|s _|t _ _ _|_ _ M0 _ C|E _ _ _ _|_|_|_ _|m b bs _ _|k K].
  - unfold add_timeout_event in H. cbn [andb negb] in H. destruct n; [discriminate|].
    destruct (back _) as [e|] eqn:Bk; [destruct (_ && _)|]; injection H as <-;
      try (apply add_okp; [apply Q_timeout|exact F]).
    apply back_split in Bk. destruct F as [A B C]. rewrite Bk in A. apply Forall_app in A.
    split; [|exact B|exact C]. cbn [p_seq p_set_seq p_cmds]. rewrite Forall_app. split; [apply A|].
    constructor; [apply Q_timeout|constructor].
  - unfold parse_not_key in H. cbn [andb] in H. unfold remove_from_pressed in H.
    rewrite andb_false_r in H. injection H as <-. apply add_okp; [apply Q_key; auto|].
    destruct (flush_okp false p Ob) as [A B C]. split; [exact A|exact B|]. cbn [p_pressed p_set_pressed].
    now apply remove_Forall.
  - destruct F as [A B C]. split; [|exact B|exact C]. cbn [p_seq p_set_hasmod p_set_seq p_cmds].
    rewrite Forall_app. split; [exact A|apply Q_string].
  - cbn zeta. destruct ck as [f|] eqn:Ek; [|exact F].
    set (q := flush_key_buffer false true p) in *. clearbody q. destruct F as [A B C].
    split; [|exact B|exact C]. cbn [p_seq p_set_cmds add_event p_set_seq p_cmds].
    rewrite app_length, Nat.add_1_r. apply Forall_app. split.
    + eapply Forall_impl; [|exact A]. intros e. apply Q_mono. lia.
    + constructor; [now apply Q_command|constructor].
  - destruct (add_okp _ _ (Q_onrel _) F) as [A B D]. split; [exact A|exact B|exact D].
  - discriminate E.
  - destruct F as [A B C]. split; [exact A|exact B|exact C].
  - destruct Ob as [A B C]. split; [exact A|exact B|exact C].
  - cbn zeta.
    assert (Ob' : okp (p_set_before (length (p_pressed p) :: p_before p) p)).
    { destruct Ob as [A B C]. split; [exact A|exact B|exact C]. }
    destruct (flush_okp false _ Ob') as [A B C]. split; [exact A|exact B|exact C].
  - cbn zeta. destruct (release_okp b _ F) as [A B C]. split; [exact A|exact B|exact C].
  - cbn zeta. destruct (p_together p); [destruct Ob as [A B C]|destruct F as [A B C]];
      (split; [exact A| |exact C]); apply Forall_app; (split; [exact B|auto]).
Qed.

Lemma output_events : forall t l cmds, parse_sequence false gk ty ck t = POk (l, cmds) ->
  Forall (Q (length cmds)) l.
Proof.
  intros t l cmds H.
  destruct (sequence_invariant false gk ty ck okp t l cmds) as [p [Op [E Ec]]].
  - split; constructor.
  - intros it p p' _ M. now apply move_okp with it.
  - exact H.
  - destruct (end_output _ _ E) as [_ [[b Eb] _]].
    pose proof (op_seq _ (release_okp 0 _ (flush_okp true p Op))) as A. rewrite Eb in A.
    rewrite Ec. now apply Forall_app in A.
Qed.
End Events.

Lemma output_obal : forall reset t l cmds,
  (reset = true -> ~ (In "!"%char t /\ In "^"%char t)) ->
  parse_sequence false gk ty ck t = POk (l, cmds) -> bal reset [] l.
Proof.
  intros reset t l cmds NB H.
  destruct (sequence_invariant false gk ty ck
              (fun p => obal reset p /\ (~ In "!"%char t -> stk p)) t l cmds) as [p [[Op _] [E _]]].
  - split; [split; [exact I|easy]|]. intros _. split; [reflexivity|now left|reflexivity].
  - intros it p p' [x Su] M [Ob Sk].
    assert (Sub : forall c, In c it -> In c t).
    { intros c Hc. rewrite Su. apply in_or_app. now right. }
    split.
    + apply (move_obal reset it p p' M); [|exact Ob]. intros Er Ic.
      apply Sk. intros Ib. apply (NB Er). split; [exact Ib|now apply Sub].
    + intros Nb. apply (move_stk it p p' M); [|now apply Sk]. intros Ib. now apply Nb, Sub.
  - exact H.
  - destruct (end_output _ _ E) as [_ [[b Eb] _]].
    destruct (flush_obal reset true p Op) as [F _].
    pose proof (ob_bal _ _ (release_obal reset 0 _ F)) as A. rewrite Eb in A.
    now apply bal_app in A.
Qed.

End Rounds.

(** The keys and values of typed strings. *)
Lemma string_output_events : forall (P : event -> Prop) g l,
  P (ev0 k_any Not) ->
  (forall m k st, In (m, k) mod_keys -> (st = Down \/ st = Up) -> P (ev0 k st)) ->
  Forall (fun x => P (Ev (st_key x) Down (st_value x)) /\ P (Ev (st_key x) Up (st_value x))) l ->
  Forall P (string_output g l).
Proof.
  intros P g l Pany Pmod Pl.
  assert (M : forall a b ml, incl ml mod_keys -> Forall P (flat_map (type_output_mod a b) ml)).
  { intros a b ml. induction ml as [|[m k] ml IH]; intros Hi; [constructor|]. cbn [flat_map].
    rewrite Forall_app. split; [|apply IH; intros y Hy; apply Hi; now right]. unfold type_output_mod.
    assert (In (m, k) mod_keys) by (apply Hi; now left).
    destruct (has_bits m a), (has_bits m b); cbn; try apply Forall_nil;
      (apply Forall_cons; [|apply Forall_nil]); apply (Pmod m); auto. }
  assert (T : forall prev, Forall P (fst (type_output l prev))).
  { induction l as [|x r IH]; intros prev; [constructor|]. inversion_clear Pl as [|? ? Px Pr].
    cbn [type_output]. specialize (IH Pr (st_mods x)). destruct (type_output r (st_mods x)) as [q z].
    cbn [fst] in *. rewrite Forall_app. split; [apply M, incl_refl|]. cbn.
    constructor; [apply Px|]. constructor; [apply Px|exact IH]. }
  unfold string_output. specialize (T 0). destruct (type_output l 0) as [sq prev].
  cbn [fst] in T. rewrite !Forall_app. repeat split; [|exact T|].
  - destruct g; [apply Forall_nil|]. apply Forall_cons; [exact Pany|apply Forall_nil].
  - unfold release_mods. assert (G : forall ml, incl ml mod_keys -> Forall P (flat_map
      (fun mk : N * key => if has_bits (fst mk) prev then [ev0 (snd mk) Up] else []) ml));
      [|apply G, incl_refl].
    intros ml. induction ml as [|[m k] ml IH]; intros Hi; [constructor|].
    cbn [flat_map fst snd]. rewrite Forall_app. split; [|apply IH; intros y Hy; apply Hi; now right].
    destruct (has_bits m prev); [|apply Forall_nil]. apply Forall_cons; [|apply Forall_nil].
    apply (Pmod m); [apply Hi; now left|auto].
Qed.

Lemma string_output_states : forall g l,
  Forall (fun e => es e = Down \/ es e = Up \/ es e = Not) (string_output g l).
Proof.
  intros g l. apply string_output_events.
  - cbn. auto.
  - intros m k st _ [->| ->]; cbn; auto.
  - apply Forall_forall. intros x _. cbn. auto.
Qed.

(** * C36 *)

Theorem output_presses_first : forall gk ty ck t l cmds,
  parse_sequence false gk ty ck t = POk (l, cmds) -> presses_first l.
Proof.
  intros gk ty ck t l cmds H. apply bal_presses_first.
  apply (output_obal gk ty ck false t l cmds); [discriminate|exact H].
Qed.
Theorem output_states : forall gk ty ck t l cmds,
  parse_sequence false gk ty ck t = POk (l, cmds) -> Forall output_state l.
Proof.
  intros gk ty ck t l cmds H. apply (output_events gk ty ck (fun _ => output_state)) with t cmds; unfold output_state.
  - intros n m e _ G. exact G.
  - intros _ k st _ [->|[->| ->]]; cbn; auto.
  - intros _ v. cbn. auto.
  - intros _. cbn. auto.
  - intros _ g s. eapply Forall_impl; [|apply string_output_states]. cbn. tauto.
  - intros f n _. cbn. auto.
  - exact H.
Qed.
Theorem output_balanced : forall gk ty ck t l cmds,
  ~ (In "!"%char t /\ In "^"%char t) ->
  parse_sequence false gk ty ck t = POk (l, cmds) -> balanced [] l.
Proof.
  intros gk ty ck t l cmds N H. apply bal_true.
  now apply (output_obal gk ty ck true t l cmds).
Qed.
