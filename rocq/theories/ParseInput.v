(** Parsed inputs (C37): states, and that they contain a press. *)
From Coq Require Import String Ascii List NArith ZArith Bool Lia.
From Verif Require Import Base Key Text TextSpec TextProofs Match ParseSeq ParseProofs ParseSpec
  ParseOutput.
Import ListNotations.
Local Open Scope N_scope.

Definition nmm : event := ev0 k_none NoMightMatch.

(** `?` only in front, the other events have states of inputs. *)
Definition shape (l : sequence) : Prop :=
  match l with [] => True | e :: r => (input_state e \/ e = nmm) /\ Forall input_state r end.
Lemma shape_app : forall a b, shape a -> Forall input_state b -> shape (a ++ b).
Proof.
  intros [|e a] b A B; cbn.
  - destruct b as [|x b]; [exact I|]. inversion_clear B. cbn. auto.
  - destruct A as [A1 A2]. split; [exact A1|]. apply Forall_app. now split.
Qed.
Lemma shape_prefix : forall a b, shape (a ++ b) -> shape a.
Proof.
  intros [|e a] b A; [exact I|]. destruct A as [A1 A2]. split; [exact A1|].
  now apply Forall_app in A2.
Qed.

(** The last event is not a press. *)
Definition not_down_end (l : sequence) : Prop :=
  match back l with Some e => es e <> Down \/ ek e = k_timeout | None => True end.
Lemma back_last : forall {A} (l : list A) e, back (l ++ [e]) = Some e.
Proof. intros A l e. unfold back. now rewrite rev_app_distr. Qed.
Lemma not_down_app : forall a b, not_down_end b -> b <> [] -> not_down_end (a ++ b).
Proof.
  intros a b H N. destruct (@exists_last _ b N) as [b' [e E]]. subst b.
  unfold not_down_end in *. rewrite app_assoc, back_last. now rewrite back_last in H.
Qed.
Lemma not_down_keys : forall st ks, st <> Down -> not_down_end (map (fun k => ev0 k st) ks).
Proof.
  intros st ks H. destruct ks as [|k ks] using rev_ind; [exact I|].
  rewrite map_app. unfold not_down_end. cbn [map]. rewrite back_last. now left.
Qed.

Lemma input_keys : forall st ks, st = Down \/ st = Up \/ st = UpAsync \/ st = DownAsync \/ st = Not ->
  Forall input_state (map (fun k => ev0 k st) ks).
Proof.
  intros st ks H. rewrite Forall_map. apply Forall_forall. intros k _. unfold input_state. cbn. tauto.
Qed.

(** Typed strings *)
Lemma type_mod_input : forall a b f mk, Forall input_state (type_input_mod a b f mk).
Proof.
  intros a b f [m k]. unfold type_input_mod.
  destruct (has_bits m a), (has_bits m b), f; cbn;
    repeat (apply Forall_cons || apply Forall_nil); unfold input_state; cbn; tauto.
Qed.
Lemma type_input_states : forall g l prev f, Forall input_state (fst (type_input g l prev f)).
Proof.
  intros g. induction l as [|x l IH]; intros prev f; [constructor|]. cbn [type_input].
  specialize (IH (st_mods x) false). destruct (type_input g l (st_mods x) false) as [r p].
  cbn [fst] in *. apply Forall_app. split.
  - destruct g; [constructor|]. apply Forall_flat_map, Forall_forall. intros mk _. apply type_mod_input.
  - cbn. repeat (apply Forall_cons); [unfold input_state; cbn; tauto..|exact IH].
Qed.
Lemma release_mods_input : forall prev, Forall input_state (release_mods UpAsync prev).
Proof.
  intros prev. unfold release_mods. apply Forall_flat_map, Forall_forall. intros mk _.
  destruct (has_bits _ prev); repeat (apply Forall_cons || apply Forall_nil). unfold input_state. cbn. tauto.
Qed.
Lemma string_input_states : forall g l, Forall input_state (string_input g l).
Proof.
  intros g l. unfold string_input. pose proof (type_input_states g l 0 true) as H.
  destruct (type_input g l 0 true) as [s p]. apply Forall_app. split; [exact H|apply release_mods_input].
Qed.
Lemma type_input_end : forall g l prev f, not_down_end (fst (type_input g l prev f)).
Proof.
  intros g. induction l as [|x l IH]; intros prev f; [exact I|]. cbn [type_input].
  specialize (IH (st_mods x) false). destruct (type_input g l (st_mods x) false) as [r p].
  cbn [fst] in *. apply not_down_app; [|discriminate].
  destruct r as [|e r]; [left; discriminate|].
  apply (not_down_app [ev0 (st_key x) Down; ev0 (st_key x) UpAsync] (e :: r)); [exact IH|discriminate].
Qed.
Lemma string_input_end : forall g l, not_down_end (string_input g l).
Proof.
  intros g l. unfold string_input. pose proof (type_input_end g l 0 true) as H.
  destruct (type_input g l 0 true) as [s p]. cbn [fst] in H.
  destruct (release_mods UpAsync p) as [|e r] eqn:E; [now rewrite app_nil_r|].
  apply not_down_app; [|discriminate].
  pose proof (release_mods_input p) as F.
  assert (G : Forall (fun e => es e = UpAsync) (e :: r)).
  { rewrite <- E. unfold release_mods. apply Forall_flat_map, Forall_forall. intros mk _.
    destruct (has_bits _ p); repeat (apply Forall_cons || apply Forall_nil). reflexivity. }
  destruct (@exists_last _ (e :: r) ltac:(discriminate)) as [b [x Ex]]. rewrite Ex in *.
  apply Forall_app in G as [_ G]. inversion_clear G as [|? ? Gx _].
  unfold not_down_end. rewrite back_last. left. rewrite Gx. discriminate.
Qed.

Section Input.
Variable gk : text -> key.
Variable ty : text -> list stroke.
Variable ck : option (nat -> key).

Record ishape (p : pstate) : Prop := IS {
  is_shape : shape (p_seq p);
  is_end : p_pressed p <> [] \/ not_down_end (p_seq p)
}.

Lemma flush_true_input : forall p, ishape p ->
  ishape (flush_key_buffer true true p) /\ p_pressed (flush_key_buffer true true p) = p_pressed p.
Proof.
  intros p [S1 E]. unfold flush_key_buffer. cbn. split; [|reflexivity]. split; cbn.
  - apply shape_app; [apply shape_app; [exact S1|]|]; apply input_keys; tauto.
  - destruct E as [E|E]; [now left|right]. destruct (p_buffer p) as [|k b] eqn:B.
    + cbn. now rewrite !app_nil_r.
    + apply not_down_app; [|discriminate]. now apply not_down_keys.
Qed.

Lemma flush_false_input : forall p, ishape p ->
  shape (p_seq (flush_key_buffer true false p)).
Proof.
  intros p [S1 E]. unfold flush_key_buffer. cbn. apply shape_app; [exact S1|]. apply input_keys. tauto.
Qed.

Lemma pop_shape : forall l e, shape l -> input_state e -> shape (pop_back l ++ [e]).
Proof.
  intros l e S1 He. apply shape_app; [|now constructor].
  destruct l as [|x l]; [exact I|]. destruct (@exists_last _ (x :: l) ltac:(discriminate)) as [a [y E]].
  rewrite E in *. unfold pop_back. rewrite removelast_last. exact (shape_prefix _ _ S1).
Qed.

Lemma end_event : forall l e, es e <> Down \/ ek e = k_timeout -> not_down_end (l ++ [e]).
Proof. intros l e H. unfold not_down_end. now rewrite back_last. Qed.

Lemma timeout_ishape : forall v n c p p', add_timeout_event true v n c p = POk p' -> ishape p ->
  ishape p' /\ p_pressed p' = p_pressed p.
Proof.
  intros v n c p p' H Hs. destruct (flush_true_input p Hs) as [[S1 E] Pr].
  unfold add_timeout_event in H. cbn [andb negb] in H.
  destruct (negb _); [discriminate|].
  set (st := if n then if c then NotTimeoutUpDown else Not else if c then Up else Down) in *.
  assert (St : forall v, input_state (Ev k_timeout st v)).
  { intros w. unfold input_state, st. destruct n, c; cbn; tauto. }
  assert (A : ishape (add_event (Ev k_timeout st v) (flush_key_buffer true true p))).
  { split; cbn [add_event p_set_seq p_seq p_pressed].
    - apply shape_app; [exact S1|]. constructor; [apply St|constructor].
    - right. apply end_event. now right. }
  destruct (back (p_seq (flush_key_buffer true true p))) as [e|] eqn:Bk;
    [|injection H as <-; split; [exact A|exact Pr]].
  destruct ((ek e =? k_timeout) && kstate_eqb (es e) st);
    injection H as <-; split; try exact Pr; [|exact A].
  split; cbn [p_set_seq p_seq p_pressed].
  - apply pop_shape; [exact S1|apply St].
  - right. apply end_event. now right.
Qed.

Lemma not_key_ishape : forall k p p', parse_not_key true k p = POk p' -> ishape p ->
  ishape p' /\ (p_pressed p = [] -> p_pressed p' = []).
Proof.
  intros k p p' H Hs. destruct (flush_true_input p Hs) as [[S1 E] Pr].
  unfold parse_not_key in H. cbn [andb] in H. destruct (_ && _); [discriminate|].
  unfold remove_from_pressed in H. rewrite andb_true_r in H.
  set (q := flush_key_buffer true true p) in *.
  set (z := if mem_key k (p_pressed q) then add_event (ev0 k UpAsync) (p_set_pressed (remove_key k (p_pressed q)) q)
            else p_set_pressed (remove_key k (p_pressed q)) q) in *.
  assert (Z1 : shape (p_seq z)).
  { unfold z. destruct (mem_key k (p_pressed q)); cbn [add_event p_seq p_set_seq p_set_pressed]; [|exact S1].
    apply shape_app; [exact S1|]. constructor; [unfold input_state; cbn; tauto|constructor]. }
  assert (Z2 : p_pressed z = remove_key k (p_pressed p)).
  { unfold z. rewrite <- Pr. destruct (mem_key k (p_pressed q)); reflexivity. }
  assert (Z3 : p_pressed p = [] -> p_pressed z = []) by (intros N; now rewrite Z2, N).
  clearbody z.
  destruct (ends_with_async_up (p_seq z) k).
  - injection H as <-. split; [|exact Z3]. split; cbn [p_seq p_set_seq p_pressed].
    + apply pop_shape; [exact Z1|]. unfold input_state. cbn. tauto.
    + right. apply end_event. now left.
  - destruct (is_pressed (p_seq z) k); injection H as <-; (split; [|exact Z3]);
      (split; cbn [add_event p_seq p_set_seq p_pressed];
       [apply shape_app; [exact Z1|]; constructor; [unfold input_state; cbn; tauto|constructor]
       |right; apply end_event; now left]).
Qed.

(** The stack of modifier groups. *)
Lemma flush_true_stk_in : forall p, stk p -> stk (flush_key_buffer true true p).
Proof. intros p [L B Z]. split; [exact L|exact B|exact Z]. Qed.

Lemma sync_app : forall p, exists ks,
  p_seq (sync_after_not_timeout p) = p_seq p ++ map (fun k => ev0 k Up) ks
  /\ p_pressed (sync_after_not_timeout p) = p_pressed p
  /\ p_modified (sync_after_not_timeout p) = p_modified p
  /\ p_before (sync_after_not_timeout p) = p_before p.
Proof. intros p. eexists. repeat split. Qed.

Definition iinv (p : pstate) : Prop := ishape p /\ stk p.

Lemma move_iinv : forall it p p', move true gk ty ck it p p' -> iinv p -> iinv p'.
Proof.
  intros it p p' M [Hs Sk]. destruct (flush_true_input p Hs) as [F Pr].
  pose proof (flush_true_stk_in p Sk) as Fk.
  destruct M as [v n p' _ _ _ H|k p' _ _ _ H|s _|t E _ _|E _ _ _ _|_ E0 _ _ _|_|_|_ Np|m b bs Em Eb|k _].
  - destruct (timeout_ishape v n _ p p' H Hs) as [A Ep]. split; [exact A|].
    unfold add_timeout_event in H. cbn [andb negb] in H. destruct (negb _); [discriminate|].
    destruct Fk as [L B Z].
    destruct (back _) as [e|]; [destruct (_ && _)|]; injection H as <-;
      (split; [exact L|exact B|exact Z]).
  - destruct (not_key_ishape k p p' H Hs) as [A Ep]. split; [exact A|].
    destruct Sk as [L B Z]. unfold parse_not_key in H. cbn [andb] in H. destruct (_ && _); [discriminate|].
    unfold remove_from_pressed in H.
    assert (Q : p_before p' = p_before p /\ p_modified p' = p_modified p).
    { destruct (_ && true); (destruct (ends_with_async_up _ k); [|destruct (is_pressed _ k)]);
        injection H as <-; now split. }
    destruct Q as [Q1 Q2]. split; rewrite ?Q1, ?Q2; auto.
  - destruct F as [S1 E]. destruct Fk as [L B Z]. cbn zeta. split; [|split; [exact L|exact B|exact Z]].
    split; cbn [p_seq p_set_hasmod p_set_seq p_pressed].
    + apply shape_app; [exact S1|apply string_input_states].
    + set (q := string_input _ (ty s)). destruct E as [E|E]; [now left|right].
      destruct q as [|e r] eqn:Eq; [now rewrite app_nil_r|]. apply not_down_app; [|discriminate].
      rewrite <- Eq. apply string_input_end.
  - discriminate E.
  - discriminate E.
  - destruct Sk as [L B Z]. split; [|split; [exact L|exact B|exact Z]].
    split; cbn [p_seq p_set_nmm add_event p_set_seq]; rewrite E0.
    + cbn. split; [now right|constructor].
    + right. left. discriminate.
  - destruct F as [S1 E]. destruct Fk as [L B Z]. split; [split|split]; auto.
  - destruct Hs as [S1 E]. destruct Sk as [L B Z]. split; [|split; [exact L|exact B|exact Z]].
    split; cbn [p_seq p_set_together p_set_seq p_pressed].
    + apply shape_app; [exact S1|]. apply input_keys. tauto.
    + destruct E as [E|E]; [now left|right]. destruct (p_buffer p) as [|k b]; [now rewrite app_nil_r|].
      apply not_down_app; [|discriminate]. now apply not_down_keys.
  - cbn zeta. split.
    + split; [|left; exact Np]. cbn [p_seq p_set_hasmod p_set_modified].
      apply flush_false_input. destruct Hs as [S1 E]. split; [exact S1|exact E].
    + destruct Sk as [L B Z]. split; cbn.
      * now rewrite L.
      * right. destruct (p_before p) as [|x r].
        -- cbn in L. symmetry in L. now rewrite (Z L).
        -- destruct B as [B|B]; [discriminate|exact B].
      * discriminate.
  - cbn zeta. destruct F as [S1 E].
    assert (Qb : p_before (flush_key_buffer true true p) = p_before p) by reflexivity.
    assert (Qm : p_modified (flush_key_buffer true true p) = p_modified p) by reflexivity.
    set (q := flush_key_buffer true true p) in *. clearbody q.
    set (z := p_set_modified m (p_set_before bs (release_pressed_keys true b q))).
    assert (Zs : ishape z).
    { split; cbn [z p_seq p_set_modified p_set_before release_pressed_keys p_set_pressed p_set_seq p_pressed].
      - apply shape_app; [exact S1|]. apply input_keys. tauto.
      - destruct (skipn b (p_pressed q)) as [|y r] eqn:Sk2.
        + cbn. rewrite app_nil_r. pose proof (firstn_skipn b (p_pressed q)) as Fs.
          rewrite Sk2, app_nil_r in Fs. rewrite Fs. exact E.
        + right. apply not_down_app; [now apply not_down_keys|]. cbn. now destruct (rev r). }
    assert (Zk : stk z).
    { destruct Fk as [L B Z]. rewrite Qb, Eb in L, B. rewrite Qm, Em in L.
      cbn in L. injection L as L. split; cbn.
      - exact L.
      - destruct bs as [|y r]; [now left|right]. destruct B as [B|B]; [discriminate|exact B].
      - intros Em0. subst m. destruct bs; [|discriminate]. destruct B as [B|B]; [discriminate|].
        cbn in B. subst b. reflexivity. }
    clearbody z. destruct (sync_app z) as [ks [Y1 [Y2 [Y3 Y4]]]]. split.
    + destruct Zs as [S2 E2]. split; rewrite ?Y1, ?Y2.
      * apply shape_app; [exact S2|]. apply input_keys. tauto.
      * destruct E2 as [E2|E2]; [now left|right]. destruct ks as [|k ks]; [now rewrite app_nil_r|].
        apply not_down_app; [now apply not_down_keys|discriminate].
    + destruct Zk as [L B Z]. split; rewrite ?Y2, ?Y3, ?Y4; auto.
  - cbn zeta. destruct (p_together p).
    + destruct Hs as [S1 E]. destruct Sk as [L B Z]. split; [split|split]; auto.
    + destruct F as [S1 E]. destruct Fk as [L B Z]. split; [split|split]; auto.
Qed.

(** `?` is the first event, and comes from the text. *)
Definition marked (t : text) (p : pstate) : Prop :=
  p_nmm p = true -> In "?"%char t /\ exists r, p_seq p = nmm :: r.

Lemma marked_app : forall t p q b, marked t p -> p_nmm q = p_nmm p -> p_seq q = p_seq p ++ b ->
  marked t q.
Proof.
  intros t p q b M N E H. rewrite N in H. destruct (M H) as [I1 [r Er]]. split; [exact I1|].
  exists (r ++ b). now rewrite E, Er.
Qed.
Lemma marked_pop : forall t p q e x, marked t p -> p_nmm q = p_nmm p ->
  back (p_seq p) = Some e -> e <> nmm -> p_seq q = pop_back (p_seq p) ++ [x] -> marked t q.
Proof.
  intros t p q e x M N B Ne E H. rewrite N in H. destruct (M H) as [I1 [r Er]]. split; [exact I1|].
  rewrite Er in *. destruct r as [|y r].
  - injection B as B. congruence.
  - exists (pop_back (y :: r) ++ [x]). rewrite E. reflexivity.
Qed.

Lemma flush_in_app : forall up p, exists b, p_seq (flush_key_buffer true up p) = p_seq p ++ b.
Proof.
  intros up p. unfold flush_key_buffer. destruct up; cbn; [|now eexists].
  rewrite <- app_assoc. now eexists.
Qed.

Lemma move_marked : forall t it p p', suffix it t -> move true gk ty ck it p p' -> marked t p -> marked t p'.
Proof.
  intros t it p p' [x Su] M Mk.
  assert (F : forall up, marked t (flush_key_buffer true up p)).
  { intros up. destruct (flush_in_app up p) as [b E]. apply (marked_app t p _ b Mk); [|exact E].
    now destruct up. }
  destruct M as [v n p' _ _ _ H|k p' _ _ _ H|s _|u E _ _|E _ _ _ _|_ E0 _ _ Iq|_|_|_ Np|m b bs Em Eb|k _].
  - unfold add_timeout_event in H. cbn [andb negb] in H. destruct (negb _); [discriminate|].
    destruct (back _) as [e|] eqn:Bk; [destruct (_ && _) eqn:C|]; injection H as <-.
    + eapply (marked_pop t (flush_key_buffer true true p) _ e);
        [exact (F true)|reflexivity|exact Bk| |reflexivity].
      intros ->. cbn in C. discriminate.
    + eapply marked_app; [exact (F true)|reflexivity|reflexivity].
    + eapply marked_app; [exact (F true)|reflexivity|reflexivity].
  - unfold parse_not_key in H. cbn [andb] in H. destruct (_ && _); [discriminate|].
    unfold remove_from_pressed in H. rewrite andb_true_r in H.
    set (q := flush_key_buffer true true p) in *.
    set (z := if mem_key k (p_pressed q) then add_event (ev0 k UpAsync) (p_set_pressed (remove_key k (p_pressed q)) q)
            else p_set_pressed (remove_key k (p_pressed q)) q) in *.
    assert (Mz : marked t z).
    { unfold z. destruct (mem_key k (p_pressed q)).
      - eapply marked_app; [exact (F true)|reflexivity|reflexivity].
      - exact (F true). }
    clearbody z. unfold ends_with_async_up in H.
    destruct (back (p_seq z)) as [e|] eqn:Bk.
    + destruct (event_eqb e (ev0 k UpAsync)) eqn:Ee.
      * injection H as <-.
        eapply (marked_pop t z _ e); [exact Mz|reflexivity|exact Bk| |reflexivity].
        intros ->. cbn in Ee. unfold event_eqb in Ee. cbn in Ee. now rewrite ?andb_false_r in Ee.
      * destruct (is_pressed (p_seq z) k); injection H as <-;
          (eapply marked_app; [exact Mz|reflexivity|reflexivity]).
    + destruct (is_pressed (p_seq z) k); injection H as <-;
        (eapply marked_app; [exact Mz|reflexivity|reflexivity]).
  - eapply marked_app; [exact (F true)|reflexivity|reflexivity].
  - discriminate E.
  - discriminate E.
  - intros _. split; [rewrite Su; apply in_or_app; now right|]. cbn. rewrite E0. now exists [].
  - exact (F true).
  - eapply marked_app; [exact Mk|reflexivity|reflexivity].
  - cbn zeta. intros H. exact (F false H).
  - cbn zeta. set (q := flush_key_buffer true true p) in *.
    set (z := p_set_modified m (p_set_before bs (release_pressed_keys true b q))).
    assert (Mz : marked t z).
    { apply (marked_app t q z (map (fun k => ev0 k UpAsync) (rev (skipn b (p_pressed q)))) (F true));
        reflexivity. }
    apply (marked_app t z _ (map (fun k => ev0 k Up) (scan_not_timeout (rev (p_seq z)) [])) Mz);
      reflexivity.
  - cbn zeta. destruct (p_together p); [exact Mk|exact (F true)].
Qed.

Lemma has_key_down_spec : forall l, has_key_down l = true ->
  exists e, In e l /\ es e = Down /\ ek e <> k_timeout.
Proof.
  intros l H. apply existsb_exists in H as [e [He C]]. exists e. split; [exact He|].
  apply andb_prop in C as [C1 C2]. split; [now destruct (es e)|].
  apply negb_true_iff, N.eqb_neq in C2. exact C2.
Qed.

Lemma shape_usable : forall l, shape l -> has_key_down l = true -> usable_input l.
Proof.
  intros l S1 H. apply has_key_down_spec in H as [e [He [E1 E2]]].
  destruct l as [|x l]; [destruct He|]. destruct S1 as [[Sx|Sx] Sl].
  - exists [], (x :: l). split; [reflexivity|]. split; [now left|].
    split; [now constructor|]. exists e. auto.
  - exists [nmm], l. split; [now rewrite Sx|]. split; [now right|]. split; [exact Sl|].
    exists e. split; [|now split].
    destruct He as [He|He]; [|exact He]. rewrite <- He, Sx in E1. discriminate.
Qed.

Theorem input_usable : forall t l cmds, parse_sequence true gk ty ck t = POk (l, cmds) ->
  usable_input l \/ (l = [nmm] /\ In "?"%char t).
Proof.
  intros t l cmds H.
  destruct (sequence_invariant true gk ty ck (fun p => iinv p /\ marked t p) t l cmds)
    as [p [[[Sh Sk] Mk] [E _]]].
  - split; [split|].
    + split; [exact I|right; exact I].
    + split; [reflexivity|now left|reflexivity].
    + discriminate.
  - intros it p p' Su M [Iv Mk]. split; [now apply (move_iinv it p p')|now apply (move_marked t it p p')].
  - exact H.
  - destruct (flush_true_input p Sh) as [[S1 E1] Pr].
    pose proof (flush_true_stk_in p Sk) as Fk.
    assert (Fm : marked t (flush_key_buffer true true p)).
    { destruct (flush_in_app true p) as [b Eb]. now apply (marked_app t p _ b Mk). }
    set (q := flush_key_buffer true true p) in *. clearbody q.
    unfold parse_end in E. destruct (p_together q); [discriminate|].
    destruct (Nat.ltb_spec 0 (p_modified q)) as [Lt|Ge]; [discriminate|].
    assert (Pq : p_pressed q = []) by (apply (sk_none _ Fk); lia).
    destruct E1 as [E1|E1]; [contradiction|]. cbn [andb] in E.
    set (z := if p_nmm q then p_set_seq (remove_all_from_end UpAsync (p_seq q)) q else q) in *.
    assert (Sz : shape (p_seq z)).
    { unfold z. destruct (p_nmm q); [|exact S1]. cbn [p_seq p_set_seq].
      destruct (remove_end_prefix UpAsync (p_seq q)) as [b Eb]. rewrite Eb in S1.
      exact (shape_prefix _ _ S1). }
    destruct (has_key_down (p_seq z)) eqn:Hd; [|discriminate]. cbn [negb] in E.
    destruct (p_nmm z && has_virtual_key (p_seq z)); [discriminate|].
    unfold check_context_active in E. destruct (existsb _ (p_seq z)).
    + cbn [negb] in E. destruct (Nat.eqb_spec (length (p_seq z)) 2) as [L2|]; [|discriminate].
      injection E as <-.
      destruct (p_seq z) as [|a [|b [|? ?]]] eqn:Ez; try discriminate. cbn [pop_back removelast].
      destruct (p_nmm q) eqn:Nq.
      * destruct (Fm Nq) as [Iq [r Er]]. right. split; [|exact Iq].
        assert (p_seq z = remove_all_from_end UpAsync (p_seq q)) as Rz by reflexivity.
        destruct (remove_end_prefix UpAsync (p_seq q)) as [w Ew].
        rewrite <- Rz, Ez, Er in Ew. now injection Ew as <-.
      * left. assert (p_seq z = p_seq q) as Rz by reflexivity.
        rewrite <- Rz, Ez in E1. cbn in E1.
        apply has_key_down_spec in Hd as [e [[He|[He|[]]] [D1 D2]]]; subst e.
        -- destruct Sz as [[Sa|Sa] _]; [|rewrite Sa in D1; discriminate].
           exists [], [a]. split; [reflexivity|]. split; [now left|]. split; [now constructor|].
           exists a. split; [now left|now split].
        -- destruct E1 as [E1|E1]; contradiction.
    + injection E as <-. left. now apply shape_usable.
Qed.

End Input.
