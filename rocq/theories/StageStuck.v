(** The keys held down by a stage were triggered by keys which are still pressed. *)
From Coq Require Import List Arith NArith ZArith Bool Lia.
From Verif Require Import Base Key Match MatchProofs Stage StageSpec StageFrame StageTerm StageOut StageSafe StageRel
  StuckSpec StuckMatch.
Import ListNotations.
Local Open Scope N_scope.

Definition up (k : key) : event := ev0 k Up.

(** * The sequence *)

(** Presses of keys which are not down any more are followed by a release. *)
Fixpoint closed (D : key -> bool) (l : sequence) : Prop :=
  match l with
  | [] => True
  | x :: r => (is_press x -> D (ek x) = false -> In (up (ek x)) r) /\ closed D r
  end.

(** The next press of the key comes after a release of it. *)
Fixpoint sep (k : key) (l : sequence) : Prop :=
  match l with
  | [] => True
  | y :: r => y = up k \/ (~ (ek y = k /\ is_press y) /\ sep k r)
  end.
Fixpoint separated (l : sequence) : Prop :=
  match l with
  | [] => True
  | x :: r => (is_press x -> sep (ek x) r) /\ separated r
  end.

(** There is a release of the key which no press precedes. *)
Fixpoint orphan (k : key) (l : sequence) : Prop :=
  match l with
  | [] => False
  | y :: r => y = up k \/ (~ (ek y = k /\ is_press y) /\ orphan k r)
  end.

Lemma up_not_press : forall k, ~ is_press (up k).
Proof. intros k [H|H]; discriminate. Qed.

Lemma orphan_In : forall k l, orphan k l -> In (up k) l.
Proof. induction l as [|y r IH]; cbn; [tauto|]. intros [<-|[_ H]]; auto. Qed.

Lemma sep_orphan : forall k l, sep k l -> In (up k) l -> orphan k l.
Proof.
  induction l as [|y r IH]; cbn; [tauto|]. intros [<-|[H1 H2]] Hi; [auto|].
  destruct Hi as [->|Hi]; auto.
Qed.

Lemma sep_no_press : forall k l, sep k l -> ~ In (up k) l -> ~ pressed_in k l.
Proof.
  induction l as [|y r IH]; cbn; intros H Hi [x [H1 H2]]; [contradiction|].
  destruct H as [->|[H3 H4]]; [tauto|]. cbn in H1. destruct H1 as [->|H1]; [tauto|].
  apply IH; auto. exists x; auto.
Qed.

Lemma no_press_sep : forall k l, ~ pressed_in k l -> sep k l.
Proof.
  induction l as [|y r IH]; intros H; cbn; [exact Logic.I|]. right. split.
  - intros [H1 H2]. apply H. exists y. cbn; auto.
  - apply IH. intros [x [H1 H2]]. apply H. exists x. cbn; auto.
Qed.

Lemma orphan_app : forall k a b, ~ pressed_in k a -> orphan k b -> orphan k (a ++ b).
Proof.
  induction a as [|y a IH]; intros b H Hb; [exact Hb|]. cbn. right. split.
  - intros [H1 H2]. apply H. exists y. cbn; auto.
  - apply IH; [|auto]. intros [x [H1 H2]]. apply H. exists x. cbn; auto.
Qed.

Lemma orphan_follows : forall k l, k <> k_timeout -> orphan k l -> ~ follows l.
Proof.
  intros k l Hk. assert (G : forall l a, orphan k l -> ~ pressed_in k a -> ~ follows (a ++ l)).
  { induction l0 as [|y r IH]; intros a Ho Ha Hf; [contradiction|]. cbn in Ho.
    destruct Ho as [->|[H1 H2]].
    - apply Ha. apply (Hf a (up k) r); auto.
    - apply (IH (a ++ [y])); [auto| |rewrite <- app_assoc; exact Hf].
      intros [x [Hx [H3 H4]]]. apply in_app_or in Hx. destruct Hx as [Hx|[<-|[]]]; [|tauto].
      apply Ha. exists x; auto. }
  intros Ho. apply (G l []); auto. intros [x [[] _]].
Qed.

(** Replacing one event which is no release. *)
Lemma orphan_remove : forall k a x b, x <> up k -> orphan k (a ++ x :: b) -> orphan k (a ++ b).
Proof.
  induction a as [|y a IH]; intros x b Hx H; cbn in *.
  - destruct H as [H|[_ H]]; [contradiction|auto].
  - destruct H as [H|[H1 H2]]; [auto|right; split; eauto].
Qed.
Lemma orphan_replace : forall k a x x' b, x <> up k -> (ek x' = k -> is_press x' -> ek x = k /\ is_press x) ->
  orphan k (a ++ x :: b) -> orphan k (a ++ x' :: b).
Proof.
  induction a as [|y a IH]; intros x x' b Hx Hp H; cbn in *.
  - destruct H as [H|[H1 H2]]; [contradiction|]. right. split; [|auto]. intros [H3 H4]. tauto.
  - destruct H as [H|[H1 H2]]; [auto|]. right. split; [auto|]. eapply IH; eauto.
Qed.

Lemma closed_true : forall D a b, Forall (fun x => is_press x -> D (ek x) = true) a ->
  closed D b -> closed D (a ++ b).
Proof.
  induction a as [|x a IH]; intros b H Hb; [exact Hb|]. cbn. split.
  - intros Hp Hd. rewrite (Forall_inv H Hp) in Hd. discriminate.
  - apply IH; [exact (Forall_inv_tail H)|auto].
Qed.

(** Removing or relabelling an event which is no release. *)
Lemma closed_remove : forall D a x b, es x <> Up -> closed D (a ++ x :: b) -> closed D (a ++ b).
Proof.
  induction a as [|y a IH]; intros x b Hx H; cbn in *; [tauto|].
  destruct H as [H1 H2]. split; [|eauto]. intros Hp Hd. specialize (H1 Hp Hd).
  apply in_app_or in H1. apply in_or_app. destruct H1 as [H1|[->|H1]]; auto. cbn in Hx. congruence.
Qed.
Lemma sep_remove : forall k a x b, es x <> Up -> sep k (a ++ x :: b) -> sep k (a ++ b).
Proof.
  induction a as [|y a IH]; intros x b Hx H; cbn in *.
  - destruct H as [->|H]; [cbn in Hx; congruence|tauto].
  - destruct H as [H|[H1 H2]]; [auto|right; split; eauto].
Qed.
Lemma separated_remove : forall a x b, es x <> Up -> separated (a ++ x :: b) -> separated (a ++ b).
Proof.
  induction a as [|y a IH]; intros x b Hx H; cbn in *; [tauto|].
  destruct H as [H1 H2]. split; [|eauto]. intros Hp. eapply sep_remove; eauto.
Qed.

Definition as_matched (x : event) : event := if kstate_eqb (es x) Down then set_es DownMatched x else x.
Lemma as_matched_press : forall x, is_press (as_matched x) <-> is_press x.
Proof. intros x. unfold as_matched, is_press. destruct (es x) eqn:E; cbn; rewrite ?E; intuition discriminate. Qed.
Lemma as_matched_key : forall x, ek (as_matched x) = ek x.
Proof. intros x. unfold as_matched. destruct (kstate_eqb _ _); reflexivity. Qed.
Lemma as_matched_up : forall k x, as_matched x = up k <-> x = up k.
Proof.
  intros k x. unfold as_matched. destruct (es x) eqn:E; cbn; try tauto.
  split; intros H; [apply (f_equal es) in H; discriminate|rewrite H in E; discriminate].
Qed.
Lemma In_matched : forall k (l : sequence), In (up k) (map as_matched l) <-> In (up k) l.
Proof.
  intros k l. rewrite in_map_iff. split.
  - intros [x [H1 H2]]. apply (proj1 (as_matched_up k x)) in H1. rewrite <- H1. exact H2.
  - intros H. exists (up k). split; [apply as_matched_up; reflexivity|exact H].
Qed.
Lemma closed_matched : forall D l, closed D l -> closed D (map as_matched l).
Proof.
  induction l as [|x l IH]; intros H; [exact H|]. cbn in *. destruct H as [H1 H2]. split; [|auto].
  intros Hp Hd. rewrite as_matched_key in *. apply In_matched. apply H1; [apply as_matched_press, Hp|auto].
Qed.
Lemma sep_matched : forall k l, sep k l -> sep k (map as_matched l).
Proof.
  induction l as [|x l IH]; intros H; [exact H|]. cbn in *. destruct H as [->|[H1 H2]]; [left; reflexivity|].
  right. split; [|auto]. rewrite as_matched_key, as_matched_press. exact H1.
Qed.
Lemma separated_matched : forall l, separated l -> separated (map as_matched l).
Proof.
  induction l as [|x l IH]; intros H; [exact H|]. cbn in *. destruct H as [H1 H2]. split; [|auto].
  intros Hp. rewrite as_matched_key. apply sep_matched. apply H1. apply as_matched_press, Hp.
Qed.

Lemma contains_up : forall x r, is_press x ->
  contains_ev (x :: r) (ev0 (ek x) Up) = true <-> In (up (ek x)) r.
Proof.
  intros x r Hp. rewrite contains_ev_In. cbn. split; [|auto]. intros [H|H]; [|auto].
  exfalso. destruct Hp as [Hp|Hp]; rewrite H in Hp; discriminate.
Qed.

(** finish_sequence *)
Lemma finish_closed : forall D n l, closed D l -> closed D (finish_loop n l).
Proof.
  induction n as [|n IH]; intros l H; [exact H|]. destruct l as [|x r]; [exact H|].
  cbn [closed] in H. destruct H as [H1 H2]. cbn [finish_loop].
  destruct (es x) eqn:E; try (destruct (ek x =? k_timeout); [cbn [closed]; split;
    [intros [Hp|Hp]; discriminate|]|]; auto);
    (assert (Hp : is_press x) by (unfold is_press; auto);
     pose proof (contains_up x r Hp) as Hc;
     destruct (contains_ev _ _); [auto|];
     cbn [closed]; split; [|auto]; intros _ Hd; exfalso; cbn in Hd;
     specialize (H1 Hp Hd); apply Hc in H1; discriminate).
Qed.

Lemma finish_no_press : forall k n l, ~ pressed_in k l -> ~ pressed_in k (finish_loop n l).
Proof.
  induction n as [|n IH]; intros l H; [exact H|]. destruct l as [|x r]; [exact H|].
  assert (Hr : ~ pressed_in k r) by (intros [y [H1 H2]]; apply H; exists y; cbn; auto).
  cbn [finish_loop].
  assert (Hx : forall s, ~ (ek (set_es s x) = k /\ is_press x)).
  { intros s [H1 H2]. apply H. exists x. cbn in *; auto. }
  assert (G : forall y, ~ (ek y = k /\ is_press y) -> ~ pressed_in k (y :: finish_loop n r)).
  { intros y Hy [z [[->|Hz] H2]]; [tauto|]. apply (IH r Hr). exists z; auto. }
  destruct (es x) eqn:E;
    try (destruct (ek x =? k_timeout); [apply G; intros [_ [Hp|Hp]]; discriminate|]; auto);
    (destruct (contains_ev _ _); [auto|]; apply G; intros [H1 _];
     apply (Hx Down); cbn; split; [exact H1|unfold is_press; auto]).
Qed.

Lemma finish_separated : forall n l, separated l -> separated (finish_loop n l).
Proof.
  induction n as [|n IH]; intros l H; [exact H|]. destruct l as [|x r]; [exact H|].
  cbn [separated] in H. destruct H as [H1 H2]. cbn [finish_loop].
  destruct (es x) eqn:E; try (destruct (ek x =? k_timeout); [cbn [separated]; split;
    [intros [Hp|Hp]; discriminate|]|]; auto);
    (assert (Hp : is_press x) by (unfold is_press; auto);
     pose proof (contains_up x r Hp) as Hc;
     destruct (contains_ev _ _); [auto|];
     cbn [separated]; split; [|auto]; intros _; cbn [ek set_es];
     apply no_press_sep, finish_no_press, sep_no_press; [auto|];
     intros Hi; apply Hc in Hi; discriminate).
Qed.

Lemma finish_split : forall u v, exists u', finish_loop (length u) (u ++ v) = u' ++ v /\
  forall k, pressed_in k u' -> pressed_in k u.
Proof.
  induction u as [|x u IH]; intros v; [exists []; auto|]. cbn [length finish_loop app].
  destruct (IH v) as [u' [E H]]. rewrite E.
  assert (H' : forall k, pressed_in k u' -> pressed_in k (x :: u)).
  { intros k Hk. destruct (H k Hk) as [y [H1 H2]]. exists y. cbn; auto. }
  destruct (es x) eqn:Ex;
    try (destruct (ek x =? k_timeout);
         [exists (set_es UpMatched x :: u')|exists u']; (split; [reflexivity|]); auto;
         intros k [y [[<-|Hy] [H1 H2]]];
         [destruct H2; discriminate|apply H'; exists y; auto]);
    (destruct (contains_ev _ _); [exists u'; auto|];
     exists (set_es DownMatched x :: u'); split; [reflexivity|];
     intros k [y [[<-|Hy] [H1 H2]]]; [exists x; cbn in *; unfold is_press; auto|apply H'; exists y; auto]).
Qed.

Lemma orphan_split : forall k l, orphan k l -> exists a b, l = a ++ up k :: b /\ ~ pressed_in k a.
Proof.
  induction l as [|y r IH]; [contradiction|]. cbn. intros [->|[H1 H2]].
  - exists [], r. split; [reflexivity|]. intros [x [[] _]].
  - destruct (IH H2) as [a [b [-> Ha]]]. exists (y :: a), b. split; [reflexivity|].
    intros [x [[->|Hx] H3]]; [tauto|]. apply Ha. exists x; auto.
Qed.

Lemma finish_orphan : forall k n l, k <> k_timeout -> follows (firstn n l) -> orphan k l ->
  orphan k (finish_loop n l).
Proof.
  intros k n l Hk Hf Ho. destruct (orphan_split k l Ho) as [a [b [-> Ha]]].
  destruct (le_lt_dec n (length a)) as [Hn|Hn].
  - replace a with (firstn n a ++ skipn n a) at 1 by apply firstn_skipn. rewrite <- app_assoc.
    replace n with (length (firstn n a)) at 1 by (rewrite firstn_length; lia).
    destruct (finish_split (firstn n a) (skipn n a ++ up k :: b)) as [u' [E H]].
    rewrite E, app_assoc. apply orphan_app; [|left; reflexivity].
    intros [x [Hx H2]]. apply in_app_or in Hx. apply Ha. destruct Hx as [Hx|Hx].
    + destruct (H k) as [y [H3 H4]]; [exists x; auto|]. exists y.
      split; [rewrite <- (firstn_skipn n a); apply in_or_app; auto|auto].
    + exists x. split; [rewrite <- (firstn_skipn n a); apply in_or_app; auto|auto].
  - exfalso. apply Ha. apply (Hf a (up k) (firstn (n - S (length a)) b)); auto.
    rewrite firstn_app. rewrite firstn_all2 by lia.
    replace (n - length a)%nat with (S (n - S (length a))) by lia. reflexivity.
Qed.

Lemma finish_all : forall l, has_non_optional (finish_loop (length l) l) = false.
Proof.
  induction l as [|x l IH]; [reflexivity|]. cbn [length finish_loop].
  destruct (es x); try (destruct (ek x =? k_timeout)); try (destruct (contains_ev _ _)); cbn; exact IH.
Qed.

(** * Triggers *)

(** The keys which triggered the held output. *)
Definition trigs (P : key -> Prop) (s : state) : Prop := forall k, ~ P k -> trig_free k s.

Lemma trigs_mono : forall (P Q : key -> Prop) s, (forall k, P k -> Q k) -> trigs P s -> trigs Q s.
Proof. intros P Q s H Hs k Hk. apply Hs. auto. Qed.
Lemma trigs_same : forall (P : key -> Prop) s s', s_down s' = s_down s -> trigs P s -> trigs P s'.
Proof. intros P s s' E H k Hk. unfold trig_free. rewrite E. apply H, Hk. Qed.
Lemma update_output_trigs : forall (P : key -> Prop) e t ci s, P (get_trigger_key t) -> trigs P s ->
  trigs P (update_output e t ci s).
Proof. intros P e t ci s Ht Hs k Hk. apply update_output_trig; [congruence|auto]. Qed.
Lemma apply_output_trigs : forall (P : key -> Prop) sq t ci s, P (get_trigger_key t) -> trigs P s ->
  trigs P (apply_output sq t ci s).
Proof. intros P sq t ci s Ht Hs k Hk. apply apply_output_trig; [congruence|auto]. Qed.
Lemma release_trigs : forall (P : key -> Prop) k s, k <> k_ContextActive -> trigs P s ->
  trigs (fun x => P x /\ x <> k) (release_triggered k None s).
Proof.
  intros P k s Hk Hs x Hx. destruct (N.eq_dec x k) as [->|E]; [apply release_trig; auto|].
  apply release_trig_other. apply Hs. tauto.
Qed.
Lemma release_trigs_other : forall (P : key -> Prop) k ci s, trigs P s -> trigs P (release_triggered k ci s).
Proof. intros P k ci s H x Hx. apply release_trig_other. auto. Qed.
Lemma continue_trigs : forall (P : key -> Prop) e ci s, P (ek e) -> trigs P s ->
  trigs P (fst (continue_output_on_release e ci s)).
Proof. intros P e ci s He Hs k Hk. apply continue_trig; [congruence|auto]. Qed.

Section WithContexts.
Variable cs : list context.

(** ContextActive triggers something only if it is an input. *)
Definition by_context (k : key) : Prop :=
  k = k_ContextActive /\ ~ all_inputs no_context_active cs.

Lemma update_active_down : all_inputs no_context_active cs -> forall s,
  s_down (update_active_contexts cs s) = s_down s.
Proof.
  intros Hc s. unfold update_active_contexts.
  destruct (eval_active cs (s_seq s) (s_client s) []) as [curr|]; [|reflexivity].
  assert (G1 : forall e ci s, s_down (on_context_active_event cs e ci s) = s_down s).
  { intros e ci s0. unfold on_context_active_event. destruct (nth_error cs ci) as [c|] eqn:E; [|reflexivity].
    destruct (find _ (cx_inputs c)) as [i|] eqn:Ef.
    - exfalso. apply find_some in Ef. destruct Ef as [Hi Hk].
      assert (Hi' := proj1 (Forall_forall _ _) Hc c (nth_error_In _ _ E)).
      assert (Hn := proj1 (Forall_forall _ _) Hi' i Hi). unfold no_context_active in Hn.
      destruct (in_seq i); [discriminate|]. apply N.eqb_eq in Hk. contradiction.
    - unfold ub_unless. destruct (forallb _ _); reflexivity. }
  assert (G : forall e l s, s_down (fold_left (fun s p => on_context_active_event cs e p s) l s) = s_down s).
  { intros e. induction l as [|x l IH]; intros s'; [reflexivity|]. cbn [fold_left]. rewrite IH. apply G1. }
  rewrite !G. reflexivity.
Qed.

Lemma update_active_trigs : forall (P : key -> Prop) s, (forall k, by_context k -> P k) -> trigs P s ->
  trigs P (update_active_contexts cs s).
Proof.
  intros P s HP Hs k Hk. destruct (N.eq_dec k k_ContextActive) as [->|E].
  - assert (D : ~ ~ all_inputs no_context_active cs).
    { intros Hn. apply Hk, HP. split; auto. }
    unfold trig_free. apply Forall_forall. intros o Ho E. apply D. intros Hc.
    rewrite (update_active_down Hc) in Ho. specialize (Hs _ Hk). unfold trig_free in Hs.
    exact (proj1 (Forall_forall _ _) Hs o Ho E).
  - apply update_active_trig; auto.
Qed.

(** * Matching *)

Lemma find_output_gives : forall act ci c i r o, In i (cx_inputs c) ->
  find_output cs act ci c (in_out i) = LFound r o -> gives cs c i o.
Proof.
  intros act ci c i r o Hi H. split; [exact Hi|]. unfold find_output in H.
  destruct (Z.leb_spec 0 (in_out i)).
  - left. split; [assumption|]. destruct (nth_error (cx_outputs c) _); [|discriminate]. congruence.
  - right. split; [lia|]. revert H. induction (rev act) as [|a l IH]; intros H; [discriminate|].
    cbn in H. destruct (fallthrough_context cs a) as [f|]; [|discriminate].
    destruct (nth_error cs f) as [c'|] eqn:Ec; [|discriminate].
    destruct (find_command (cx_commands c') (in_out i)) as [j|] eqn:Ej; [|auto].
    destruct (nth_error (cx_commands c') j) as [m|] eqn:Em; [|discriminate].
    injection H as <- <-. exists c', m.
    split; [eapply nth_error_In; eauto|]. split; [eapply nth_error_In; eauto|].
    split; [|reflexivity]. unfold find_command in Ej.
    destruct (rfind_index _ _) as [j'|]; [|discriminate].
    destruct (nth_error (cx_commands c') j') as [m'|] eqn:Em'; [|discriminate].
    destruct (Z.eqb_spec (cm_idx m') (in_out i)); [|discriminate]. congruence.
Qed.

Definition result_ok (sq : sequence) (res : min_result) : Prop :=
  match res with
  | RNo => True
  | RMight inp _ => exists a t, match_keys inp sq = Some (MightMatch, a, t) /\ plain_input inp
  | RMatch _ o inp _ => exists a t c i, match_keys inp sq = Some (Matched, a, t) /\ plain_input inp /\
                                  In c cs /\ inp = in_seq i /\ gives cs c i o
  end.

Definition calm (s : state) : Prop := all_inputs timeless cs -> s_timeout s = None.

Lemma match_no_timeout : forall fuel ex sq m r a te, timeless ex ->
  match_loop fuel ex sq m = Some (r, a, Some te) -> False.
Proof.
  induction fuel as [|fuel IH]; intros ex sq m r a te Ht H; cbn [match_loop] in H.
  - destruct ex, sq; discriminate.
  - assert (Hd : match match_step (hd matches_none ex) (hd matches_none sq)
              (match sq with [] => true | _ => false end) m with
      | MRet r t => Some (r, ms_any m, t)
      | MGo ae as_ m' => match_loop fuel (tl_if ae ex) (tl_if as_ sq) m'
      end = Some (r, a, Some te)) by (destruct ex, sq; auto; discriminate).
    clear H. destruct (match_step _ _ _ m) as [r' t'|ae as_ m'] eqn:E.
    + injection Hd as -> _ ->. unfold match_step in E.
      cbn [ms_async ms_not ms_ign ms_any ms_nmm ms_e ms_down] in E.
      repeat match type of E with
      | (if ?b then _ else _) = _ => let B := fresh in destruct b eqn:B; try discriminate E
      | match find_index ?f ?l with _ => _ end = _ => destruct (find_index f l); try discriminate E
      end.
      match goal with H : (ek ?x =? k_timeout) && _ = true |- _ =>
        apply andb_prop in H; destruct H as [H _]; apply N.eqb_eq in H end.
      destruct ex as [|x ex]; [discriminate|]. exact (Forall_inv Ht H4).
    + eapply IH; [|exact Hd]. destruct ae; [|exact Ht]. destruct ex; [exact Ht|].
      exact (Forall_inv_tail Ht).
Qed.

Hypothesis Hplain : all_inputs plain_input cs.

Lemma plain_nmm : forall l, plain_input l -> is_nmm_mapping l = false.
Proof.
  intros l [H _]. destruct l as [|x l]; [reflexivity|]. cbn.
  destruct (es x) eqn:E; try reflexivity. destruct (Forall_inv H) as [_ Hx]. contradiction.
Qed.

Lemma match_inputs_result : forall first sq dev u ci c l s s' res,
  In c cs -> incl l (cx_inputs c) -> calm s ->
  match_inputs cs first sq dev u ci c l s = (s', res) ->
  calm s' /\ match res with Some r => result_ok sq r | None => True end.
Proof.
  induction l as [|i l IH]; intros s s' res Hc Hl Hcalm H; cbn [match_inputs] in H.
  - injection H as <- <-. auto.
  - assert (Hi : In i (cx_inputs c)) by (apply Hl; left; reflexivity).
    assert (Hl' : incl l (cx_inputs c)) by (intros x Hx; apply Hl; right; exact Hx).
    assert (Hp : plain_input (in_seq i)).
    { assert (Hx := proj1 (Forall_forall _ _) Hplain c Hc). exact (proj1 (Forall_forall _ _) Hx i Hi). }
    rewrite (plain_nmm _ Hp) in H. cbn [andb negb] in H. rewrite andb_true_r in H.
    destruct (match_keys (in_seq i) sq) as [[[r anys] t]|] eqn:Em.
    2:{ injection H as <- <-. split; [exact Hcalm|exact Logic.I]. }
    set (s1 := ub_unless _ (set_any anys s)) in *.
    assert (H1 : calm s1).
    { unfold s1, ub_unless. destruct (match in_seq i with [] => _ | _ => _ end); exact Hcalm. }
    clearbody s1. destruct r.
    + eapply IH; eauto.
    + destruct first; [|eapply IH; eauto]. injection H as <- <-. split; [|exists anys, t; auto].
      intros Ht. unfold on_might_match. destruct t as [te|]; [|auto]. exfalso.
      eapply match_no_timeout; [|exact Em].
      assert (Hx := proj1 (Forall_forall _ _) Ht c Hc). exact (proj1 (Forall_forall _ _) Hx i Hi).
    + destruct (find_output cs (s_active s1) ci c (in_out i)) as [r o| |] eqn:Ef.
      * injection H as <- <-. split; [exact H1|].
        exists anys, t, c, i. repeat (split; [auto|]). eapply find_output_gives; eauto.
      * eapply IH; eauto.
      * injection H as <- <-. split; [exact H1|exact Logic.I].
Qed.

Lemma match_contexts_result : forall first sq dev u act s s' res,
  calm s -> match_contexts cs first sq dev u act s = (s', res) -> calm s' /\ result_ok sq res.
Proof.
  induction act as [|ci act IH]; intros s s' res Hc H; cbn [match_contexts] in H.
  - injection H as <- <-. split; [exact Hc|exact Logic.I].
  - destruct (nth_error cs ci) as [c|] eqn:Ec.
    2:{ injection H as <- <-. split; [exact Hc|exact Logic.I]. }
    destruct (device_matches_filter c dev); [|eapply IH; eauto].
    destruct (match_inputs cs first sq dev u ci c (cx_inputs c) s) as [s1 r] eqn:Em.
    destruct (match_inputs_result _ _ _ _ _ _ _ _ _ _ (nth_error_In _ _ Ec) (incl_refl _) Hc Em) as [H1 H2].
    destruct r as [r|]; [|eapply IH; eauto]. injection H as <- <-. auto.
Qed.

Lemma match_input_result : forall first sq dev u s s' res,
  calm s -> match_input cs first sq dev u s = (s', res) -> calm s' /\ result_ok sq res.
Proof.
  intros first sq dev u s s' res Hc H. unfold match_input in H.
  eapply match_contexts_result; [|exact H]. unfold ub_unless. destruct (valid_device dev); exact Hc.
Qed.

Lemma match_prefixes_result : forall n dev u s s' res,
  calm s -> match_prefixes cs n dev u s = (s', res) ->
  calm s' /\ match res with Some (len, r) => result_ok (firstn len (s_seq s)) r | None => True end.
Proof.
  induction n as [|n IH]; intros dev u s s' res Hc H; cbn [match_prefixes] in H.
  - injection H as <- <-. auto.
  - destruct (Nat.ltb 1 (S n)); [|injection H as <- <-; auto].
    destruct (negb _); [injection H as <- <-; auto|].
    destruct (match_input cs false (firstn n (s_seq s)) dev u s) as [s1 r] eqn:Em.
    destruct (match_input_result _ _ _ _ _ _ _ Hc Em) as [H1 H2].
    assert (E1 : s_seq s1 = s_seq s).
    { destruct (match_input_frame cs false (firstn n (s_seq s)) dev u s) as [Hf _].
      rewrite Em in Hf. cbn in Hf. unfold same_match in Hf. tauto. }
    destruct r as [|inp ci|r o inp ci].
    + destruct (IH _ _ _ _ _ H1 H) as [H3 H4]. rewrite E1 in H4. auto.
    + destruct (IH _ _ _ _ _ H1 H) as [H3 H4]. rewrite E1 in H4. auto.
    + injection H as <- <-. auto.
Qed.


(** No output waits for the release of a timeout, and no timeout was started by one. *)
Record quiet (s : state) : Prop := {
  q_rel : Forall (fun r => or_trigger r <> k_timeout) (s_onrel s);
  q_ct : forall c, s_timeout s = Some c -> ct_trigger c <> k_timeout
}.

Lemma quiet_same : forall s s', s_onrel s' = s_onrel s -> s_timeout s' = s_timeout s -> quiet s -> quiet s'.
Proof. intros s s' H1 H2 [Q1 Q2]. constructor; [rewrite H1|rewrite H2]; auto. Qed.

Lemma apply_output_quiet : forall o t ci s,
  (es (get_trigger_event t) = Down -> get_trigger_key t <> k_timeout) ->
  quiet s -> quiet (apply_output o t ci s).
Proof.
  intros o t ci s Ht. revert s. induction o as [|x o IH]; intros s Hq; [exact Hq|].
  assert (Hup : forall x s, quiet s -> quiet (update_output x t ci s)).
  { intros y s0. pose proof (update_output_frame y t ci s0) as Hf. unfold same_out in Hf.
    apply quiet_same; tauto. }
  assert (Hfold : forall st l s, quiet s -> quiet (fold_left (fun s k => update_output (ev0 k st) t ci s) l s)).
  { intros st. induction l as [|k l IHl]; intros s0 Hs0; [exact Hs0|]. cbn [fold_left]. auto. }
  cbn [apply_output]. destruct (ek x =? k_any).
  - apply IH. destruct (es x); auto.
  - destruct (es x) eqn:Ex; auto.
    + destruct (is_virtual_key (ek x)); auto. apply IH. destruct (existsb _ _); auto.
    + destruct (es (get_trigger_event t)) eqn:Et; auto.
      destruct Hq as [Q1 Q2]. constructor; [|exact Q2]. cbn [s_onrel set_onrel]. apply Forall_app. split; [exact Q1|].
      constructor; [|constructor]. cbn. apply (Ht eq_refl).
Qed.

Lemma continue_quiet : forall e ci s, quiet s -> quiet (fst (continue_output_on_release e ci s)).
Proof.
  intros e ci s Hq. unfold continue_output_on_release.
  destruct (find_index _ (s_onrel s)) as [i|]; [|exact Hq].
  destruct (es e) eqn:Ee; try exact Hq;
    (destruct (nth_error (s_onrel s) i) as [o|]; [|exact Hq]; cbn [fst];
     assert (Q : quiet (apply_output (or_seq o) (TEvent e) (or_ctx o) s))
       by (apply apply_output_quiet; [intros H; cbn in H; congruence|exact Hq]);
     destruct Q as [Q1 Q2]; constructor; [|exact Q2]; cbn [s_onrel set_onrel];
     apply Forall_forall; intros x Hx; apply In_remove_at in Hx; exact (proj1 (Forall_forall _ _) Q1 x Hx)).
Qed.

Lemma release_quiet : forall k ci s, quiet s -> quiet (release_triggered k ci s).
Proof.
  intros k ci s [Q1 Q2]. unfold release_triggered. cbn [s_timeout set_down set_buf].
  destruct (s_timeout s) as [c|] eqn:E.
  - destruct (ct_trigger c =? k); constructor; cbn; auto; try discriminate. intros c' Hc'. apply Q2. congruence.
  - constructor; cbn; auto. intros c' Hc'. congruence.
Qed.

Definition no_timeout_press (l : sequence) : Prop := Forall (fun x => is_press x -> ek x <> k_timeout) l.

Lemma find_last_down_In : forall l x, find_last_down_event l = Some x -> In x l /\ is_press x.
Proof.
  intros l x H. unfold find_last_down_event in H. induction l as [|y l IH]; [discriminate|]. cbn in H.
  destruct (find_last _ l) as [z|] eqn:Ez.
  - injection H as ->. destruct (IH eq_refl). cbn; auto.
  - destruct (es y) eqn:Ey; cbn in H; try discriminate; injection H as <-; unfold is_press; cbn; auto.
Qed.

Lemma match_inputs_quiet : forall first sq dev u ci c l s,
  no_timeout_press sq -> quiet s -> quiet (fst (match_inputs cs first sq dev u ci c l s)).
Proof.
  induction l as [|i l IH]; intros s Hs Hq; cbn [match_inputs]; [exact Hq|].
  destruct (_ && _); [auto|]. destruct (_ && _); [auto|].
  destruct (match_keys _ _) as [[[r anys] t]|]; [|eapply quiet_same; [| |exact Hq]; reflexivity].
  set (s1 := ub_unless _ (set_any anys s)).
  assert (H1 : quiet s1).
  { eapply quiet_same; [| |exact Hq]; unfold s1, ub_unless; destruct (match in_seq i with [] => _ | _ => _ end); reflexivity. }
  clearbody s1. destruct r; [auto| |].
  - destruct (first && _); [|auto]. cbn [fst]. unfold on_might_match. destruct t as [te|]; [|exact H1].
    assert (H2 : quiet (emit te s1)) by (eapply quiet_same; [| |exact H1]; reflexivity).
    set (s2 := emit te s1) in *. clearbody s2.
    destruct (find_last_down_event sq) as [tr|] eqn:Etr; [|exact H2].
    match goal with |- quiet (if ?b then _ else _) => destruct b end.
    + destruct H2 as [Q1 Q2]. constructor; [exact Q1|]. cbn. intros c0 E0. injection E0 as <-. cbn.
      apply find_last_down_In in Etr. destruct Etr as [Hin Hd].
      exact (proj1 (Forall_forall _ _) Hs tr Hin Hd).
    + destruct u; [|exact H2]. eapply quiet_same; [| |exact H2]; reflexivity.
  - destruct (find_output _ _ _ _ _) as [r o| |]; [exact H1|auto|].
    eapply quiet_same; [| |exact H1]; reflexivity.
Qed.

Lemma match_input_quiet : forall first sq dev u s,
  no_timeout_press sq -> quiet s -> quiet (fst (match_input cs first sq dev u s)).
Proof.
  intros first sq dev u s Hs Hq. unfold match_input.
  assert (G : forall act s, quiet s -> quiet (fst (match_contexts cs first sq dev u act s))).
  { induction act as [|ci act IH]; intros s0 H0; [exact H0|]. cbn [match_contexts].
    destruct (nth_error cs ci) as [c|]; [|eapply quiet_same; [| |exact H0]; reflexivity].
    destruct (device_matches_filter c dev); [|auto].
    pose proof (match_inputs_quiet first sq dev u ci c (cx_inputs c) s0 Hs H0) as H1.
    destruct (match_inputs cs first sq dev u ci c (cx_inputs c) s0) as [s1 [r|]]; cbn [fst] in *; auto. }
  apply G. eapply quiet_same; [| |exact Hq]; unfold ub_unless; destruct (valid_device dev); reflexivity.
Qed.

Lemma no_timeout_firstn : forall n l, no_timeout_press l -> no_timeout_press (firstn n l).
Proof.
  induction n as [|n IH]; intros l H; [constructor|]. destruct H; cbn; constructor; auto. apply IH; auto.
Qed.

Lemma match_prefixes_quiet : forall n dev u s,
  no_timeout_press (s_seq s) -> quiet s -> quiet (fst (match_prefixes cs n dev u s)).
Proof.
  induction n as [|n IH]; intros dev u s Hs Hq; cbn [match_prefixes]; [exact Hq|].
  destruct (Nat.ltb 1 (S n)); [|exact Hq]. destruct (negb _); [exact Hq|].
  pose proof (match_input_quiet false (firstn n (s_seq s)) dev u s (no_timeout_firstn n _ Hs) Hq) as H1.
  destruct (match_input_frame cs false (firstn n (s_seq s)) dev u s) as [Hf _].
  destruct (match_input cs false (firstn n (s_seq s)) dev u s) as [s1 r]. cbn [fst] in *.
  assert (E1 : s_seq s1 = s_seq s) by (unfold same_match in Hf; tauto).
  destruct r as [|inp ci|r o inp ci]; [apply IH|apply IH|exact H1]; auto; rewrite E1; exact Hs.
Qed.

Lemma timeout_after_match_quiet : forall e so r s, quiet s -> quiet (fst (timeout_after_match e so r s)).
Proof.
  intros e so r s Hq. unfold timeout_after_match. destruct (s_timeout s) as [c|] eqn:E; [|exact Hq].
  assert (Hc := q_ct _ Hq c E).
  assert (G : forall c', ct_trigger c' = ct_trigger c -> quiet (set_timeout (Some c') s)).
  { intros c' Hc'. constructor; [exact (q_rel _ Hq)|]. cbn. intros c0 E0. injection E0 as <-. congruence. }
  destruct (is_not_timeout _); [exact Hq|]. destruct (ek e =? k_timeout).
  - destruct r as [| |r o i ci]; try exact Hq. destruct (ct_output c) as [r0|].
    + destruct (oref_eqb r0 r); exact Hq.
    + destruct so; [exact Hq|]. cbn [fst]. apply G. reflexivity.
  - destruct r as [| |r o i ci]; try exact Hq. cbn [fst]. apply G. reflexivity.
Qed.
Lemma not_timeout_after_match_quiet : forall r s, quiet s -> quiet (not_timeout_after_match r s).
Proof.
  intros r s Hq. unfold not_timeout_after_match. destruct (s_timeout s) as [c|] eqn:E; [|exact Hq].
  assert (Hc := q_ct _ Hq c E). destruct (is_not_timeout _); [|exact Hq]. destruct r; try exact Hq.
  constructor; [exact (q_rel _ Hq)|]. cbn. intros c0 E0. injection E0 as <-. exact Hc.
Qed.

Lemma forward_quiet : forall l pre s, quiet s -> quiet (forward_loop pre l s).
Proof.
  assert (G : forall l s, quiet s -> quiet (set_seq l s)) by (intros l s; apply quiet_same; reflexivity).
  assert (U : forall e t ci s, quiet s -> quiet (update_output e t ci s)).
  { intros e t ci s. pose proof (update_output_frame e t ci s) as Hf. unfold same_out in Hf. apply quiet_same; tauto. }
  induction l as [|x r IH]; intros pre s Hq; cbn [forward_loop]; [exact Hq|].
  destruct (es x); try (apply G, release_quiet; exact Hq);
    destruct (contains_ev _ _); auto.
  destruct (s_timeout s) as [c|]; [destruct (ct_output c)|]; auto.
Qed.

Lemma select_quiet : forall e inp o s, plain_input inp -> (es e = Down -> ek e <> k_timeout) -> quiet s ->
  es (get_trigger_event (select_trigger e inp o s)) = Down ->
  get_trigger_key (select_trigger e inp o s) <> k_timeout.
Proof.
  intros e inp o s [_ [_ [te [Hte Ht]]]] He Hq.
  assert (Ete : get_trigger_event (TSeq inp) = te).
  { unfold get_trigger_event. unfold completes in Hte. rewrite Hte. reflexivity. }
  assert (E : es (get_trigger_event (TEvent e)) = Down -> get_trigger_key (TEvent e) <> k_timeout) by exact He.
  unfold select_trigger.
  set (t1 := if _ || _ then TEvent e else TSeq inp).
  assert (H1 : es (get_trigger_event t1) = Down -> get_trigger_key t1 <> k_timeout).
  { unfold t1. destruct (_ || _); [exact E|]. intros _. unfold get_trigger_key. rewrite Ete. exact Ht. }
  clearbody t1. set (t2 := if get_trigger_key t1 =? k_timeout then _ else t1).
  assert (H2 : es (get_trigger_event t2) = Down -> get_trigger_key t2 <> k_timeout).
  { unfold t2. destruct (get_trigger_key t1 =? k_timeout); [|exact H1].
    destruct (s_timeout s) as [c|] eqn:Ec; [|exact H1]. intros _. exact (q_ct _ Hq c Ec). }
  clearbody t2. cbn zeta. destruct (is_physically_pressed _ _); [exact H2|].
  match goal with |- context [if ?b then t2 else _] => destruct b end; auto.
Qed.

Lemma round_quiet : forall e dev s s' brk, apply_round cs e dev s = (s', brk) ->
  (es e = Down -> ek e <> k_timeout) -> no_timeout_press (s_seq s) -> calm s -> quiet s -> quiet s'.
Proof.
  intros e dev s s' brk H He Hs Hc Hq. unfold apply_round in H.
  set (u := kstate_eqb (es e) Up && negb (ek e =? k_timeout)) in *.
  pose proof (match_input_quiet true (s_seq s) dev u s Hs Hq) as Q1.
  destruct (match_input_frame cs true (s_seq s) dev u s) as [Ha _].
  destruct (match_input cs true (s_seq s) dev u s) as [s1 res] eqn:Em. cbn [fst] in *.
  destruct (match_input_result _ _ _ _ _ _ _ Hc Em) as [Hc1 Hr].
  assert (E1 : s_seq s1 = s_seq s) by (unfold same_match in Ha; tauto).
  destruct (is_virtual_key (ek e) && _); [injection H as <- <-; eapply quiet_same; [| |exact Q1]; reflexivity|].
  assert (K : forall s2 len res2 (so : bool), quiet s2 -> result_ok (firstn len (s_seq s)) res2 ->
    (let '(s, res) := timeout_after_match e so res2 s2 in
     let s := not_timeout_after_match res s in
     match res with
     | RMatch _ o inp ci =>
         ((if so then finish_sequence len (apply_output o (select_trigger e inp o s) (Some ci) s)
           else set_might false (finish_sequence len (apply_output o (select_trigger e inp o s) (Some ci) s))), false)
     | _ => ((if s_might (forward_from_sequence s) && negb (has_non_optional (s_seq (forward_from_sequence s)))
              then set_might false (forward_from_sequence s) else forward_from_sequence s), false)
     end) = (s', brk) -> quiet s').
  { intros s2 len res2 so Q2 R2 HH.
    destruct (timeout_after_match_frame e so res2 s2) as [_ [_ [_ [_ [_ Ht6]]]]].
    pose proof (timeout_after_match_quiet e so res2 s2 Q2) as Q3.
    destruct (timeout_after_match e so res2 s2) as [s3 res3]. cbn [fst snd] in *.
    assert (Hr3 : result_ok (firstn len (s_seq s)) res3)
      by (destruct Ht6 as [Ht6|Ht6]; rewrite Ht6; [exact R2|exact Logic.I]).
    pose proof (not_timeout_after_match_quiet res3 s3 Q3) as Q4.
    set (s4 := not_timeout_after_match res3 s3) in *.
    destruct res3 as [|inp ci|r o inp ci].
    1,2: pose proof (forward_quiet (s_seq s4) [] s4 Q4) as Q5; fold (forward_from_sequence s4) in Q5;
      match type of HH with ((if ?b then _ else _), _) = _ => destruct b end; injection HH as <- <-;
      [eapply quiet_same; [| |exact Q5]; reflexivity|exact Q5].
    destruct Hr3 as [a [t [c [i [_ [Hp _]]]]]].
    assert (Q5 : quiet (apply_output o (select_trigger e inp o s4) (Some ci) s4)).
    { apply apply_output_quiet; [|exact Q4]. apply select_quiet; auto. }
    destruct so; injection HH as <- <-; (eapply quiet_same; [| |exact Q5]; reflexivity). }
  destruct res as [|inp ci|r o inp ci].
  - cbn [negb andb] in H. destruct (s_might s1).
    + assert (Hs1 : no_timeout_press (s_seq s1)) by (rewrite E1; exact Hs).
      pose proof (match_prefixes_quiet (length (s_seq s)) dev u s1 Hs1 Q1) as Q2.
      destruct (match_prefixes cs (length (s_seq s)) dev u s1) as [s3 r3] eqn:Emp. cbn [fst] in Q2.
      destruct (match_prefixes_result _ _ _ _ _ _ Hc1 Emp) as [_ Hr2]. rewrite E1 in Hr2.
      destruct r3 as [[len' r']|].
      * apply (K s3 len' r' true); auto.
      * apply (K s3 (length (s_seq s)) RNo false); auto.
    + apply (K s1 (length (s_seq s)) RNo false); auto.
  - injection H as <- <-. eapply quiet_same; [| |exact Q1]; reflexivity.
  - cbn [negb andb] in H. apply (K s1 (length (s_seq s)) (RMatch r o inp ci) false); auto.
    rewrite firstn_all. exact Hr.
Qed.

(** * One event *)

Section Event.
Variable e : event.
Variable D : key -> bool.
Variable h : sequence.
Hypothesis Hown : no_own_key cs h.
Hypothesis He : es e = Up \/ (es e = Down /\ D (ek e) = true /\ ek e <> k_timeout).

Record ev_ok (x : event) : Prop := {
  eo_any : ek x <> k_any;
  eo_none : ek x <> k_none;
  eo_ctx : ek x <> k_ContextActive;
  eo_state : seq_state x;
  eo_um : es x = UpMatched -> ek x = k_timeout;
  eo_up : es x = Up -> In x h /\ (ek x <> k_timeout -> ev x = 0);
  eo_press : is_press x -> ek x <> k_timeout
}.

Record seq_ok (l : sequence) : Prop := {
  so_ev : Forall ev_ok l;
  so_closed : closed D l;
  so_sep : separated l
}.

(** The keys which may hold output when the event was processed. *)
Definition holds (k : key) : Prop :=
  D k = true \/ by_context k \/ (k = ek e /\ es e = Up).
(** And while it is processed. *)
Definition holds_in (l : sequence) (k : key) : Prop :=
  holds k \/ (k <> k_timeout /\ is_virtual_key (ek e) = false /\ orphan k l).

Lemma holds_event : holds (ek e).
Proof. unfold holds. destruct He as [E|[_ [E _]]]; auto. Qed.

Lemma rfind_last : forall k l i x, rfind_key l k = Some i -> nth_error l i = Some x ->
  exists a b, l = a ++ x :: b /\ ek x = k /\ length a = i /\ forall y, In y b -> ek y <> k.
Proof.
  intros k l. unfold rfind_key. induction l as [|z l IH]; intros i x H Hx; [discriminate|]. cbn in H.
  destruct (rfind_index (has_key k) l) as [j|] eqn:Ej.
  - injection H as <-. destruct (IH j x eq_refl Hx) as [a [b [-> [H1 [H2 H3]]]]].
    exists (z :: a), b. cbn. auto.
  - unfold has_key at 1 in H. destruct (N.eqb_spec (ek z) k); [|discriminate]. injection H as <-.
    injection Hx as <-. exists [], l. repeat split; auto.
    clear -Ej. induction l as [|y l IH]; [contradiction|]. cbn in Ej.
    destruct (rfind_index (has_key k) l); [discriminate|]. unfold has_key at 1 in Ej.
    destruct (N.eqb_spec (ek y) k); [discriminate|]. intros w [<-|Hw]; auto.
Qed.

Lemma closed_app_r : forall a b, closed D (a ++ b) -> closed D b.
Proof. induction a as [|x a IH]; intros b H; [exact H|]. apply IH. exact (proj2 H). Qed.

Lemma pressed_down : forall s k, seq_ok (s_seq s) -> is_physically_pressed s k = true ->
  D k = true \/ k = k_timeout.
Proof.
  intros s k [S1 S2 _] H. unfold is_physically_pressed in H.
  destruct (rfind_key (s_seq s) k) as [i|] eqn:Ei; [|discriminate].
  destruct (nth_error (s_seq s) i) as [x|] eqn:Ex; [|discriminate].
  destruct (rfind_last _ _ _ _ Ei Ex) as [a [b [Hl [Hk [_ Hb]]]]].
  rewrite Hl in S1, S2. apply Forall_app in S1. destruct S1 as [_ S1].
  destruct (Forall_inv S1) as [_ _ _ Hst Hum _ _].
  assert (Hc : is_press x -> D k = true).
  { intros Hp. destruct (D k) eqn:Ed; [reflexivity|exfalso]. apply closed_app_r in S2. destruct S2 as [S2 _].
    rewrite Hk in S2. specialize (S2 Hp Ed). apply (Hb _ S2). reflexivity. }
  destruct Hst as [Hs|[Hs|[Hs|Hs]]]; rewrite Hs in H; try discriminate.
  - left. apply Hc. left; auto.
  - left. apply Hc. right; auto.
  - right. rewrite <- Hk. auto.
Qed.

Lemma select_ok : forall inp o c i s, plain_input inp -> inp = in_seq i -> In c cs -> gives cs c i o ->
  seq_ok (s_seq s) -> calm s -> holds (get_trigger_key (select_trigger e inp o s)).
Proof.
  intros inp o c i s Hp Hi Hc Hg Hs Hcalm.
  destruct Hp as [Hp1 [_ [te [Hte Ht]]]].
  assert (Ete : get_trigger_event (TSeq inp) = te).
  { unfold get_trigger_event. unfold completes in Hte. rewrite Hte. reflexivity. }
  assert (Hany : ek te <> k_any).
  { assert (In te inp).
    { clear -Hte. unfold completes in Hte. induction inp as [|x l IH]; [discriminate|]. cbn in Hte.
      destruct (find_last is_non_optional l) as [y|]; [right; apply IH; congruence|].
      destruct (is_non_optional x); [|discriminate]. left. congruence. }
    exact (proj1 (proj1 (Forall_forall _ _) Hp1 te H)). }
  unfold select_trigger.
  assert (Hk1 : get_trigger_key (TSeq inp) = ek te) by (unfold get_trigger_key; rewrite Ete; reflexivity).
  rewrite Hk1. apply N.eqb_neq in Hany. rewrite Hany. cbn [orb].
  assert (Fin : forall t : trigger,
     (is_physically_pressed s (get_trigger_key t) = true -> holds (get_trigger_key t)) ->
     (o = [get_trigger_event t] -> contains_ev (s_seq s) (ev0 (get_trigger_key t) Up) = true ->
        holds (get_trigger_key t)) ->
     holds (get_trigger_key
       (if is_physically_pressed s (get_trigger_key t) then t
        else if match o with
                | [x] => event_eqb x (get_trigger_event t)
                         && contains_ev (s_seq s) (ev0 (get_trigger_key t) Up)
                | _ => false
                end then t else TEvent e))).
  { intros t H1 H2. destruct (is_physically_pressed s (get_trigger_key t)); [auto|].
    destruct o as [|x [|y o]]; try exact holds_event.
    destruct (event_eqb x (get_trigger_event t) && _) eqn:Ek; [|exact holds_event].
    apply andb_prop in Ek. destruct Ek as [Ek1 Ek2]. apply event_eqb_eq' in Ek1. subst x. auto. }
  assert (Hpress : forall t, get_trigger_key t <> k_timeout ->
     is_physically_pressed s (get_trigger_key t) = true -> holds (get_trigger_key t)).
  { intros t Hnt Hx. left. destruct (pressed_down s _ Hs Hx); [auto|contradiction]. }
  destruct (N.eqb_spec (ek e) k_timeout) as [Et|Et].
  - assert (Hto : holds k_timeout) by (rewrite <- Et; exact holds_event).
    assert (Ee : (get_trigger_key (TEvent e) =? k_timeout) = true) by (apply N.eqb_eq; exact Et).
    rewrite Ee.
    destruct (s_timeout s) as [ct|] eqn:Ect.
    + apply Fin.
      * destruct (N.eq_dec (get_trigger_key (TKey (ct_trigger ct))) k_timeout) as [->|Hn]; auto.
      * intros Ho Hu. apply contains_ev_In in Hu.
        destruct (Hown c i o Hc Hg) as [_ [Htl|Hno]].
        { rewrite (Hcalm Htl) in Ect. discriminate. }
        exfalso. apply (Hno (ct_trigger ct)); [|exact Ho].
        destruct Hs as [S1 _ _]. exact (proj1 (eo_up _ (proj1 (Forall_forall _ _) S1 _ Hu) eq_refl)).
    + apply Fin; intros; change (holds (ek e)); exact holds_event.
  - rewrite Hk1. apply N.eqb_neq in Ht. rewrite Ht. apply N.eqb_neq in Ht. apply Fin.
    + apply Hpress. rewrite Hk1. exact Ht.
    + intros Ho _. exfalso. rewrite Ete in Ho. destruct (Hown c i o Hc Hg) as [H1 _].
      apply (H1 te); [rewrite <- Hi; exact Hte|exact Ho].
Qed.

Lemma ev_ok_seq : forall l, Forall ev_ok l ->
  Forall (fun e => ek e <> k_any /\ ek e <> k_none /\ seq_state e) l.
Proof. intros l H. eapply Forall_impl; [|exact H]. intros x [H1 H2 _ H3 _ _ _]. auto. Qed.

Lemma finish_ev_ok : forall n l, Forall ev_ok l -> Forall ev_ok (finish_loop n l).
Proof.
  induction n as [|n IH]; intros l H; [exact H|]. destruct l as [|x r]; [exact H|].
  assert (Hr := IH r (Forall_inv_tail H)). apply Forall_inv in H. destruct H as [H1 H2 H3 H4 H5 H6 H7].
  cbn [finish_loop].
  destruct (es x) eqn:E;
    try (destruct (N.eqb_spec (ek x) k_timeout); [|exact Hr];
         constructor; [|exact Hr]; constructor; cbn; auto; try discriminate;
         [right; right; right; reflexivity|intros [Hp|Hp]; discriminate]);
    (destruct (contains_ev _ _); [exact Hr|]; constructor; [|exact Hr];
     constructor; cbn; auto; try discriminate; [right; right; left; reflexivity|];
     intros _; apply H7; unfold is_press; auto).
Qed.

Lemma finish_seq_ok : forall n l, seq_ok l -> seq_ok (finish_loop n l).
Proof.
  intros n l [H1 H2 H3]. constructor; [apply finish_ev_ok|apply finish_closed|apply finish_separated]; auto.
Qed.

(** forward_from_sequence *)
Definition open_press (l : sequence) (x : event) : Prop :=
  is_press x /\ D (ek x) = true /\ ~ In (up (ek x)) l.

Lemma forward_ok : forall l pre s, s_seq s = pre ++ l -> seq_ok (pre ++ l) ->
  Forall (open_press l) pre -> is_virtual_key (ek e) = false ->
  trigs (holds_in (pre ++ l)) s -> calm s ->
  let s' := forward_loop pre l s in seq_ok (s_seq s') /\ trigs (holds_in (s_seq s')) s' /\ calm s'.
Proof.
  induction l as [|x r IH]; intros pre s Hseq Hok Hpre Hv Ht Hc; cbn [forward_loop].
  - cbn zeta. rewrite Hseq. auto.
  - destruct Hok as [S1 S2 S3].
    assert (Hx : ev_ok x) by (apply Forall_app in S1; destruct S1 as [_ S1]; exact (Forall_inv S1)).
    assert (Hpr : Forall (fun y => is_press y -> D (ek y) = true) pre).
    { eapply Forall_impl; [|exact Hpre]. intros y [_ [H _]] _. exact H. }
    assert (Cr : closed D (x :: r)) by (apply closed_app_r with (a := pre); exact S2).
    assert (Er : Forall ev_ok (pre ++ r)).
    { apply Forall_app in S1. destruct S1 as [S1 S1']. apply Forall_app. split; [auto|exact (Forall_inv_tail S1')]. }
    assert (Sx : separated (x :: r)).
    { clear -S3. induction pre as [|y p IHp]; [exact S3|]. apply IHp. exact (proj2 S3). }
    assert (Spre : forall q, separated q -> (forall y, In y pre -> ~ pressed_in (ek y) q) -> separated (pre ++ q)).
    { clear -S3 Hpre. induction pre as [|y p IHp]; intros q Hq Hn; [exact Hq|]. cbn. split.
      - intros Hp. apply no_press_sep. destruct S3 as [S3 _]. specialize (S3 Hp).
        intros [z [Hz [Hz1 Hz2]]]. apply in_app_or in Hz. destruct Hz as [Hz|Hz].
        + (* a press in the rest of p *)
          destruct (Forall_inv Hpre) as [_ [_ Hno]].
          apply (sep_no_press (ek y) (p ++ x :: r)); [exact S3| |].
          * intros Hi. apply in_app_or in Hi. destruct Hi as [Hi|Hi]; [|auto].
            assert (Hop := proj1 (Forall_forall _ _) (Forall_inv_tail Hpre) _ Hi).
            destruct Hop as [Hop _]. exact (up_not_press _ Hop).
          * exists z. split; [apply in_or_app; auto|auto].
        + apply (Hn y); [left; reflexivity|]. exists z; auto.
      - apply IHp; [exact (proj2 S3)|exact (Forall_inv_tail Hpre)|exact Hq|].
        intros z Hz. apply Hn. right. exact Hz. }
    (* no press of an open key follows *)
    assert (Nr : forall y, In y pre -> ~ pressed_in (ek y) (x :: r)).
    { intros y Hy Hp. assert (Hop := proj1 (Forall_forall _ _) Hpre y Hy). destruct Hop as [Hop1 [_ Hop3]].
      clear -S3 Hy Hop1 Hop3 Hp Hpre.
      assert (G : forall p, (forall z, In z p -> is_press z) -> separated (p ++ x :: r) -> In y p ->
                 sep (ek y) (x :: r)).
      { induction p as [|z p IHp]; intros Hz Hsep Hin; [contradiction|]. destruct Hsep as [Hs1 Hs2].
        destruct Hin as [->|Hin]; [|apply IHp; auto; intros w Hw; apply Hz; right; exact Hw].
        specialize (Hs1 Hop1). clear -Hs1 Hz. assert (Hz' : forall w, In w p -> is_press w) by (intros w Hw; apply Hz; right; exact Hw).
        clear Hz. induction p as [|w p IHp]; [exact Hs1|]. cbn in Hs1. destruct Hs1 as [->|[_ Hs1]].
        - exfalso. apply (up_not_press (ek y)). apply Hz'. left; reflexivity.
        - apply IHp; [exact Hs1|]. intros v Hv. apply Hz'. right; exact Hv. }
      apply (sep_no_press (ek y) (x :: r)); auto. apply (G pre); auto.
      intros z Hz. exact (proj1 (proj1 (Forall_forall _ _) Hpre z Hz)). }
    assert (Nr' : forall y, In y pre -> ~ pressed_in (ek y) r).
    { intros y Hy [z [Hz Hz']]. apply (Nr y Hy). exists z. cbn; auto. }
    assert (Release : es x <> Down -> es x <> DownMatched ->
      let s' := set_seq (pre ++ r) (release_triggered (ek x) None s) in
      seq_ok (s_seq s') /\ trigs (holds_in (s_seq s')) s' /\ calm s').
    { intros N1 N2. cbn zeta. cbn [s_seq set_seq]. split; [|split].
      - constructor; [exact Er| |].
        + apply closed_true; [exact Hpr|exact (proj2 Cr)].
        + apply Spre; [exact (proj2 Sx)|exact Nr'].
      - apply (trigs_same _ (release_triggered (ek x) None s)); [reflexivity|].
        eapply trigs_mono; [|apply release_trigs; [apply (eo_ctx _ Hx)|exact Ht]].
        intros k [[Hk|[Hk1 [Hk2 Hk3]]] Hkx]; [left; exact Hk|right]. split; [auto|]. split; [auto|].
        eapply orphan_remove; [|exact Hk3]. intros E. apply Hkx. rewrite E. reflexivity.
      - intros Htl. specialize (Hc Htl). cbn. unfold release_triggered. cbn [s_timeout set_down set_buf].
        rewrite Hc. exact Hc. }
    assert (Press : is_press x ->
      (forall s1, (s1 = s \/ s1 = update_output x (TKey (ek x)) None s) ->
        (In (up (ek x)) r -> let s' := set_seq (pre ++ r) s1 in
           seq_ok (s_seq s') /\ trigs (holds_in (s_seq s')) s' /\ calm s') /\
        (~ In (up (ek x)) r -> let s' := set_seq (pre ++ set_es DownMatched x :: r) s1 in
           seq_ok (s_seq s') /\ trigs (holds_in (s_seq s')) s' /\ calm s')) /\
      (~ In (up (ek x)) r -> open_press r x)).
    { intros Hp.
      assert (HD : ~ In (up (ek x)) r -> D (ek x) = true).
      { intros Hn. destruct (D (ek x)) eqn:Ed; [reflexivity|]. exfalso. apply Hn. apply (proj1 Cr); auto. }
      split; [|intros Hn; split; [exact Hp|auto]].
      intros s1 Hs1.
      assert (C1 : calm s1).
      { intros Htl. specialize (Hc Htl). destruct Hs1 as [->| ->]; [exact Hc|].
        pose proof (update_output_frame x (TKey (ek x)) None s) as Hf. unfold same_out in Hf. intuition congruence. }
      assert (T1 : forall P : key -> Prop, P (ek x) -> trigs P s -> trigs P s1).
      { intros P HP HPs. destruct Hs1 as [->| ->]; [exact HPs|]. apply update_output_trigs; auto. }
      assert (Nup : forall k, x <> up k) by (intros k E; rewrite E in Hp; exact (up_not_press _ Hp)).
      split; intros Hi; cbn zeta; cbn [s_seq set_seq]; (split; [|split; [|exact C1]]).
      - constructor; [exact Er| |].
        + apply closed_true; [exact Hpr|exact (proj2 Cr)].
        + apply Spre; [exact (proj2 Sx)|exact Nr'].
      - apply (trigs_same _ s1); [reflexivity|]. apply T1.
        + right. split; [apply (eo_press _ Hx Hp)|]. split; [exact Hv|]. apply orphan_app.
          * intros [z [Hz [Hz1 Hz2]]]. assert (Hop := proj1 (Forall_forall _ _) Hpre z Hz).
            destruct Hop as [_ [_ Hop]]. apply Hop. right. rewrite Hz1. exact Hi.
          * apply sep_orphan; [apply (proj1 Sx Hp)|exact Hi].
        + eapply trigs_mono; [|exact Ht]. intros k [Hk|[Hk1 [Hk2 Hk3]]]; [left; exact Hk|right].
          split; [auto|]. split; [auto|]. eapply orphan_remove; [|exact Hk3]. apply Nup.
      - constructor.
        + apply Forall_app in S1. destruct S1 as [S1 S1']. apply Forall_app. split; [exact S1|].
          constructor; [|exact (Forall_inv_tail S1')]. destruct Hx as [X1 X2 X3 X4 X5 X6 X7].
          constructor; cbn; auto; try discriminate. right; right; left; reflexivity.
        + apply closed_true; [exact Hpr|]. cbn [closed ek set_es]. split; [|exact (proj2 Cr)].
          intros _ Hd. rewrite (HD Hi) in Hd. discriminate.
        + apply Spre.
          * cbn [separated ek set_es]. split; [|exact (proj2 Sx)]. intros _. apply (proj1 Sx Hp).
          * intros y Hy [z [[<-|Hz] Hz']]; apply (Nr y Hy); [exists x; cbn in *; tauto|exists z; cbn; auto].
      - apply (trigs_same _ s1); [reflexivity|]. apply T1.
        + left. left. auto.
        + eapply trigs_mono; [|exact Ht]. intros k [Hk|[Hk1 [Hk2 Hk3]]]; [left; exact Hk|right].
          split; [auto|]. split; [auto|]. eapply orphan_replace; [| |exact Hk3]; [apply Nup|].
          intros Hk _. cbn in Hk. auto. }
    destruct (es x) eqn:Ex; try (apply Release; intros E0; congruence).
    + assert (Hp : is_press x) by (left; exact Ex). destruct (Press Hp) as [Pr _].
      pose proof (contains_up x r Hp) as Hcu.
      destruct (contains_ev (x :: r) (ev0 (ek x) Up)).
      * apply (Pr (update_output x (TKey (ek x)) None s)); [auto|]. apply Hcu. reflexivity.
      * assert (Hn : ~ In (up (ek x)) r) by (intros Hn; apply Hcu in Hn; discriminate).
        destruct (s_timeout s) as [c|]; [destruct (ct_output c)|];
          [apply (Pr s)|apply (Pr (update_output x (TKey (ek x)) None s))|
           apply (Pr (update_output x (TKey (ek x)) None s))]; auto.
    + assert (Hp : is_press x) by (right; exact Ex). destruct (Press Hp) as [Pr Po].
      pose proof (contains_up x r Hp) as Hcu.
      destruct (contains_ev (x :: r) (ev0 (ek x) Up)).
      * apply (Pr (update_output x (TKey (ek x)) None s)); [auto|]. apply Hcu. reflexivity.
      * assert (Hn : ~ In (up (ek x)) r) by (intros Hn; apply Hcu in Hn; discriminate).
        apply IH; auto.
        -- rewrite <- app_assoc. exact Hseq.
        -- rewrite <- app_assoc. constructor; auto.
        -- apply Forall_app. split; [|constructor; [auto|constructor]].
           eapply Forall_impl; [|exact Hpre]. intros y [H1 [H2 H3]]. split; [exact H1|]. split; [exact H2|].
           intros Hi. apply H3. right. exact Hi.
        -- rewrite <- app_assoc. exact Ht.
Qed.

(** One round of the loop. *)
Lemma timeout_calm : forall so r s, calm s -> calm (fst (timeout_after_match e so r s)).
Proof.
  intros so r s Hc Ht. specialize (Hc Ht). unfold timeout_after_match. rewrite Hc. exact Hc.
Qed.
Lemma not_timeout_calm : forall r s, calm s -> calm (not_timeout_after_match r s).
Proof.
  intros r s Hc Ht. specialize (Hc Ht). unfold not_timeout_after_match. rewrite Hc. exact Hc.
Qed.
Lemma timeout_keeps : forall so r s, ek e <> k_timeout ->
  snd (timeout_after_match e so r s) = r.
Proof.
  intros so r s Hn. unfold timeout_after_match. apply N.eqb_neq in Hn. rewrite Hn.
  destruct (s_timeout s) as [c|]; [|reflexivity]. destruct (is_not_timeout _); [reflexivity|].
  destruct r; reflexivity.
Qed.

Lemma matched_follows : forall l sq r, Forall ev_ok l -> sq = l -> result_ok sq r -> r <> RNo -> follows l.
Proof.
  intros l sq r Hl -> Hr Hn. destruct r as [|inp ci|r o inp ci]; [contradiction| |].
  - destruct Hr as [a [t [H1 H2]]]. eapply match_follows; eauto using ev_ok_seq. discriminate.
  - destruct Hr as [a [t [c [i [H1 [H2 _]]]]]]. eapply match_follows; eauto using ev_ok_seq. discriminate.
Qed.

Lemma Forall_firstn' : forall A (P : A -> Prop) n l, Forall P l -> Forall P (firstn n l).
Proof.
  induction n as [|n IH]; intros l H; [constructor|]. destruct H; cbn; constructor; auto.
Qed.

Lemma round_stuck : forall dev s s' brk,
  apply_round cs e dev s = (s', brk) ->
  seq_ok (s_seq s) -> trigs (holds_in (s_seq s)) s -> calm s ->
  seq_ok (s_seq s') /\ calm s' /\
  if brk then trigs holds s' else trigs (holds_in (s_seq s')) s'.
Proof.
  intros dev s s' brk H Hok Ht Hc. unfold apply_round in H.
  set (u := kstate_eqb (es e) Up && negb (ek e =? k_timeout)) in *.
  destruct (match_input_frame cs true (s_seq s) dev u s) as [Ha _].
  destruct (match_input cs true (s_seq s) dev u s) as [s1 res] eqn:Em. cbn [fst] in *.
  destruct (match_input_result _ _ _ _ _ _ _ Hc Em) as [Hc1 Hr].
  assert (E1 : s_seq s1 = s_seq s /\ s_down s1 = s_down s) by (unfold same_match in Ha; tauto).
  destruct E1 as [E1 E1d].
  assert (Ht1 : trigs (holds_in (s_seq s)) s1) by (apply (trigs_same _ s); auto).
  assert (Hevs : forall n, Forall ev_ok (firstn n (s_seq s))).
  { intros n. apply Forall_firstn'. apply (so_ev _ Hok). }
  destruct (is_virtual_key (ek e)) eqn:Ev; cbn [andb] in H.
  - (* a virtual key *)
    assert (Hnt : ek e <> k_timeout) by (intros E; rewrite E in Ev; discriminate).
    assert (Hh : trigs holds s1).
    { eapply trigs_mono; [|exact Ht1]. intros k [Hk|[_ [Hk _]]]; [exact Hk|congruence]. }
    destruct res as [|inp ci|r o inp ci]; cbn [negb] in H.
    + injection H as <- <-. unfold finish_sequence. cbn. rewrite E1. split; [apply finish_seq_ok; auto|].
      split; [exact Hc1|]. apply (trigs_same _ s1); auto.
    + injection H as <- <-. unfold finish_sequence. cbn. rewrite E1. split; [apply finish_seq_ok; auto|].
      split; [exact Hc1|]. apply (trigs_same _ s1); auto.
    + cbn [andb] in H.
      destruct (timeout_after_match_frame e false (RMatch r o inp ci) s1) as [Hf1 _].
      pose proof (timeout_calm false (RMatch r o inp ci) s1 Hc1) as Hc2.
      pose proof (timeout_keeps false (RMatch r o inp ci) s1 Hnt) as Hk.
      destruct (timeout_after_match e false (RMatch r o inp ci) s1) as [s2 res2]. cbn [fst snd] in *. subst res2.
      destruct (not_timeout_after_match_frame (RMatch r o inp ci) s2) as [Hf2 _].
      pose proof (not_timeout_calm (RMatch r o inp ci) s2 Hc2) as Hc3.
      set (s3 := not_timeout_after_match (RMatch r o inp ci) s2) in *.
      assert (E3 : s_seq s3 = s_seq s /\ s_down s3 = s_down s1).
      { unfold same_match in *. intuition congruence. }
      destruct E3 as [E3 E3d].
      destruct Hr as [a [t [c [i [Hr1 [Hr2 [Hr3 [Hr4 Hr5]]]]]]]].
      assert (Hsel : holds (get_trigger_key (select_trigger e inp o s3))).
      { eapply select_ok; eauto. rewrite E3. exact Hok. }
      pose proof (apply_output_frame o (select_trigger e inp o s3) (Some ci) s3) as Hao.
      injection H as <- <-.
      assert (Hto : trigs holds (apply_output o (select_trigger e inp o s3) (Some ci) s3)).
      { apply apply_output_trigs; [exact Hsel|]. apply (trigs_same _ s1); auto. }
      set (s5 := apply_output o _ (Some ci) s3) in *.
      assert (E5 : s_seq s5 = s_seq s /\ s_timeout s5 = s_timeout s3) by (unfold same_app in Hao; intuition congruence).
      destruct E5 as [E5 E5t].
      split; [|split].
      * unfold finish_sequence. cbn. rewrite E5. apply finish_seq_ok. exact Hok.
      * intros Htl. cbn. rewrite E5t. exact (Hc3 Htl).
      * apply (trigs_same _ s5); [reflexivity|]. eapply trigs_mono; [|exact Hto]. intros k Hk. left; exact Hk.
  - (* other keys *)
    destruct res as [|inp ci|r o inp ci].
    2:{ injection H as <- <-. cbn. rewrite E1. split; [exact Hok|]. split; [exact Hc1|].
        apply (trigs_same _ s1); [reflexivity|]. eapply trigs_mono; [|exact Ht1].
        intros k [Hk|[Hk1 [_ Hk3]]]; [exact Hk|exfalso].
        eapply (orphan_follows k (s_seq s)); eauto.
        eapply matched_follows; [apply (so_ev _ Hok)|reflexivity|exact Hr|discriminate]. }
    all: match type of H with (let '(_, _) := ?X in _) = _ => destruct X as [[[s2 len] res2] so] eqn:E2
       | _ => idtac end.
    all: assert (Hp : same_match s s2 /\ calm s2 /\ result_ok (firstn len (s_seq s)) res2).
    1:{ destruct (s_might s1); cbn [negb andb] in E2.
        - destruct (match_prefixes_frame cs (length (s_seq s)) dev u s1) as [Hpf _].
          destruct (match_prefixes cs (length (s_seq s)) dev u s1) as [s3 r3] eqn:Emp. cbn [fst] in Hpf.
          destruct (match_prefixes_result _ _ _ _ _ _ Hc1 Emp) as [Hc2 Hr2].
          rewrite E1 in Hr2.
          destruct r3 as [[len' r']|]; injection E2 as <- <- <- <-.
          + split; [eapply same_match_trans; eauto|]. auto.
          + split; [eapply same_match_trans; eauto|]. split; [auto|exact Logic.I].
        - injection E2 as <- <- <- <-. split; [auto|]. split; [auto|exact Logic.I]. }
    2:{ cbn [negb andb] in E2. injection E2 as <- <- <- <-. split; [auto|]. split; [auto|].
        rewrite firstn_all. exact Hr. }
    all: destruct Hp as [Hp1 [Hp2 Hp3]]; clear E2 Hr Em.
    all: destruct (timeout_after_match_frame e so res2 s2) as [Ht1' [_ [_ [_ [_ Ht6]]]]];
      pose proof (timeout_calm so res2 s2 Hp2) as Hc3;
      destruct (timeout_after_match e so res2 s2) as [s3 res3]; cbn [fst snd] in *.
    all: assert (Hr3 : result_ok (firstn len (s_seq s)) res3)
      by (destruct Ht6 as [Ht6|Ht6]; rewrite Ht6; [exact Hp3|exact Logic.I]).
    all: destruct (not_timeout_after_match_frame res3 s3) as [Hn1 _];
      pose proof (not_timeout_calm res3 s3 Hc3) as Hc4;
      set (s4 := not_timeout_after_match res3 s3) in *.
    all: assert (H4 : same_match s s4) by (repeat (eapply same_match_trans; eauto)).
    all: assert (E4 : s_seq s4 = s_seq s /\ s_down s4 = s_down s) by (unfold same_match in H4; tauto);
      destruct E4 as [E4 E4d].
    all: assert (Ht4 : trigs (holds_in (s_seq s)) s4) by (apply (trigs_same _ s); auto).
    all: destruct res3 as [|inp3 ci3|r3 o3 inp3 ci3].
    all: try (
      destruct (forward_ok (s_seq s4) [] s4) as [F1 [F2 F3]];
        [reflexivity|cbn [app]; rewrite E4; exact Hok|constructor|exact Ev|cbn [app]; rewrite E4; exact Ht4
        |exact Hc4|];
      fold (forward_from_sequence s4) in F1, F2, F3;
      match type of H with ((if ?B then ?X else ?Y), false) = _ =>
        assert (Hs' : (s' = X \/ s' = Y) /\ brk = false)
          by (destruct B; injection H as <- <-; auto)
      end;
      destruct Hs' as [Hs' ->]; destruct Hs' as [-> | ->]; auto; fail).
    all: destruct Hr3 as [a [t [c [i [Hr1 [Hr2 [Hr3 [Hr4 Hr5]]]]]]]].
    all: assert (Hsel : holds (get_trigger_key (select_trigger e inp3 o3 s4)))
      by (eapply select_ok; eauto; rewrite E4; exact Hok).
    all: pose proof (apply_output_frame o3 (select_trigger e inp3 o3 s4) (Some ci3) s4) as Hao.
    all: assert (Hto : trigs (holds_in (s_seq s)) (apply_output o3 (select_trigger e inp3 o3 s4) (Some ci3) s4))
      by (apply apply_output_trigs; [left; exact Hsel|exact Ht4]).
    all: set (s5 := apply_output o3 _ (Some ci3) s4) in *.
    all: assert (E5 : s_seq s5 = s_seq s /\ s_timeout s5 = s_timeout s4)
      by (unfold same_app in Hao; intuition congruence); destruct E5 as [E5 E5t].
    all: assert (Hfol : follows (firstn len (s_seq s)))
      by (eapply match_follows; [exact Hr2| |exact Hr1|discriminate]; apply ev_ok_seq, Hevs).
    all: assert (Hs' : (s' = finish_sequence len s5 \/ s' = set_might false (finish_sequence len s5)) /\ brk = false)
      by (destruct so; injection H as <- <-; auto).
    all: destruct Hs' as [Hs' ->].
    all: assert (Es' : s_seq s' = finish_loop len (s_seq s) /\ s_down s' = s_down s5 /\ s_timeout s' = s_timeout s5)
      by (destruct Hs' as [-> | ->]; unfold finish_sequence; cbn; rewrite E5; auto).
    all: destruct Es' as [Es1 [Es2 Es3]]; rewrite Es1.
    all: split; [apply finish_seq_ok; exact Hok|]; split; [intros Htl; rewrite Es3, E5t; exact (Hc4 Htl)|].
    all: apply (trigs_same _ s5); [exact Es2|]; eapply trigs_mono; [|exact Hto].
    all: intros k [Hk|[Hk1 [Hk2 Hk3]]]; [left; exact Hk|right]; split; [auto|]; split; [auto|];
      apply finish_orphan; auto.
Qed.

Lemma loop_stuck : forall dev s n s', loop_run cs e dev s n s' ->
  seq_ok (s_seq s) -> trigs (holds_in (s_seq s)) s -> calm s ->
  seq_ok (s_seq s') /\ calm s' /\ trigs holds s'.
Proof.
  induction 1 as [s Hn|s s' Hn Hr|s s1 n s' Hn Hr Hl IH]; intros Hok Ht Hc.
  - split; [exact Hok|]. split; [exact Hc|]. eapply trigs_mono; [|exact Ht].
    intros k [Hk|[_ [_ Hk]]]; [exact Hk|exfalso]. apply orphan_In in Hk.
    assert (Hx : has_non_optional (s_seq s) = true).
    { apply existsb_exists. exists (up k). auto. }
    congruence.
  - exact (round_stuck _ _ _ _ Hr Hok Ht Hc).
  - destruct (round_stuck _ _ _ _ Hr Hok Ht Hc) as [H1 [H2 H3]]. auto.
Qed.

End Event.

(** * The calls *)

Lemma is_down_snoc : forall h e k, is_down_after (h ++ [e]) k =
  if ek e =? k then kstate_eqb (es e) Down else is_down_after h k.
Proof.
  intros h e k. unfold is_down_after.
  assert (E : find_last (has_key k) (h ++ [e]) =
              if ek e =? k then Some e else find_last (has_key k) h).
  { induction h as [|x h IH]; cbn; [unfold has_key; destruct (ek e =? k); reflexivity|].
    rewrite IH. destruct (ek e =? k); reflexivity. }
  rewrite E. destruct (ek e =? k); reflexivity.
Qed.

Lemma closed_mono : forall D D' l, closed D l ->
  (forall x, In x l -> is_press x -> D' (ek x) = false -> D (ek x) = false) -> closed D' l.
Proof.
  induction l as [|x l IH]; intros H HD; [exact H|]. destruct H as [H1 H2]. cbn. split.
  - intros Hp Hd. apply H1; [exact Hp|]. apply HD; cbn; auto.
  - apply IH; [exact H2|]. intros y Hy. apply HD. right; exact Hy.
Qed.

Lemma closed_snoc : forall D D' l e, closed D l ->
  (forall x, In x l -> is_press x -> D' (ek x) = false -> D (ek x) = false \/ e = up (ek x)) ->
  (is_press e -> D' (ek e) = true) -> closed D' (l ++ [e]).
Proof.
  induction l as [|x l IH]; intros e H HD He.
  - cbn. split; [|exact Logic.I]. intros Hp Hd. rewrite (He Hp) in Hd. discriminate.
  - destruct H as [H1 H2]. cbn. split.
    + intros Hp Hd. apply in_or_app. destruct (HD x) as [Hx|Hx]; cbn; auto.
    + apply IH; [exact H2| |exact He]. intros y Hy. apply HD. right; exact Hy.
Qed.

Definition other (k : key) : key -> bool := fun x => negb (x =? k).

Lemma closed_sep : forall l e, (is_press e -> closed (other (ek e)) l) -> separated l ->
  separated (l ++ [e]).
Proof.
  induction l as [|x l IH]; intros e Hc Hs; [cbn; auto|]. destruct Hs as [H1 H2]. cbn. split.
  - intros Hp. specialize (H1 Hp).
    assert (G : is_press e -> ek e = ek x -> In (up (ek x)) l).
    { intros He Ek. specialize (Hc He). destruct Hc as [Hc _]. apply Hc; [exact Hp|].
      unfold other. rewrite Ek, N.eqb_refl. reflexivity. }
    clear -H1 G. induction l as [|y l IH].
    + cbn. right. split; [|exact Logic.I]. intros [Ek He]. destruct (G He Ek).
    + cbn in *. destruct H1 as [H1|[H1 H2]]; [auto|]. destruct (event_eqb y (up (ek x))) eqn:Ey.
      * left. apply event_eqb_eq'. exact Ey.
      * right. split; [exact H1|]. apply IH; [exact H2|]. intros He Ek. destruct (G He Ek) as [->|G']; [|exact G'].
        exfalso. rewrite (MatchProofs.event_eqb_refl (up (ek x))) in Ey. discriminate.
  - apply IH; [|exact H2]. intros He. exact (proj2 (Hc He)).
Qed.

Lemma closed_other : forall k l, ~ pressed_in k l -> closed (other k) l.
Proof.
  induction l as [|x l IH]; intros H; [exact Logic.I|]. cbn. split.
  - intros Hp Hd. exfalso. apply H. exists x. cbn. unfold other in Hd. apply negb_false_iff, N.eqb_eq in Hd. auto.
  - apply IH. intros [y [H1 H2]]. apply H. exists y. cbn; auto.
Qed.
Lemma closed_last : forall k a b, (forall y, In y b -> ek y <> k) -> closed (other k) (a ++ up k :: b).
Proof.
  induction a as [|x a IH]; intros b Hb; cbn.
  - split; [intros Hp; exfalso; exact (up_not_press _ Hp)|]. apply closed_other.
    intros [y [H1 [H2 _]]]. exact (Hb y H1 H2).
  - split; [|auto]. intros _ Hd. unfold other in Hd. apply negb_false_iff, N.eqb_eq in Hd. rewrite Hd.
    apply in_or_app. right. left. reflexivity.
Qed.
Lemma closed_removed : forall a x b, is_press x -> (forall y, In y b -> ek y <> ek x) ->
  separated (a ++ x :: b) -> closed (other (ek x)) (a ++ b).
Proof.
  induction a as [|y a IH]; intros x b Hx Hb H; cbn in *.
  - apply closed_other. intros [z [H1 [H2 _]]]. exact (Hb z H1 H2).
  - destruct H as [H1 H2]. split; [|eauto]. intros Hp Hd.
    unfold other in Hd. apply negb_false_iff, N.eqb_eq in Hd. specialize (H1 Hp). rewrite Hd in *.
    apply in_or_app. left. clear -H1 Hx. induction a as [|z a IH]; cbn in *.
    + exfalso. destruct H1 as [H1|[H1 _]]; [|tauto]. rewrite H1 in Hx. exact (up_not_press _ Hx).
    + destruct H1 as [H1|[_ H1]]; auto.
Qed.

Lemma remove_at_split : forall A (a : list A) x b, remove_at (length a) (a ++ x :: b) = a ++ b.
Proof. induction a as [|y a IH]; intros x b; cbn; [reflexivity|]. f_equal. apply IH. Qed.

Record rest (h : sequence) (s : state) : Prop := {
  r_seq : seq_ok (is_down_after h) h (s_seq s);
  r_trig : trigs (fun k => is_down_after h k = true \/ by_context k) s;
  r_calm : calm s
}.

Lemma update_active_calm : forall s, calm s -> calm (update_active_contexts cs s).
Proof.
  intros s Hc Ht. specialize (Hc Ht). unfold update_active_contexts.
  destruct (eval_active cs (s_seq s) (s_client s) []) as [curr|]; [|exact Hc].
  assert (G1 : forall e ci s, s_timeout s = None -> s_timeout (on_context_active_event cs e ci s) = None).
  { intros e ci s0 H0. unfold on_context_active_event. destruct (nth_error cs ci) as [c|]; [|exact H0].
    set (s1 := ub_unless _ s0). assert (H1 : s_timeout s1 = None) by (unfold s1, ub_unless; destruct (forallb _ _); exact H0).
    clearbody s1. destruct (find _ (cx_inputs c)) as [i|]; [|exact H1].
    assert (Hr : s_timeout (let '(s0, _) := continue_output_on_release e (Some ci) s1 in
                     release_triggered (ek e) (Some ci) s0) = None).
    { pose proof (continue_frame e (Some ci) s1) as Hf.
      destruct (continue_output_on_release e (Some ci) s1) as [s2 b]. cbn [fst] in Hf.
      assert (H2 : s_timeout s2 = None) by (unfold same_app in Hf; intuition congruence).
      unfold release_triggered. cbn [s_timeout set_down set_buf]. rewrite H2. exact H2. }
    destruct (es e); try exact Hr.
    destruct (find_output cs (s_active s1) ci c (in_out i)) as [r o| |]; [|exact H1|exact H1].
    pose proof (apply_output_frame o (TEvent e) (Some ci) s1) as Hf. unfold same_app in Hf. intuition congruence. }
  assert (G : forall e l s, s_timeout s = None ->
    s_timeout (fold_left (fun s p => on_context_active_event cs e p s) l s) = None).
  { intros e. induction l as [|x l IH]; intros s' Hs; [exact Hs|]. cbn [fold_left]. apply IH. auto. }
  apply G. apply G. exact Hc.
Qed.

Lemma release_calm : forall k ci s, calm s -> calm (release_triggered k ci s).
Proof.
  intros k ci s Hc Ht. specialize (Hc Ht). unfold release_triggered. cbn [s_timeout set_down set_buf].
  rewrite Hc. exact Hc.
Qed.

Lemma clean_up_same : forall fuel s, let s' := clean_up_history cs fuel s in
  s_seq s' = s_seq s /\ s_down s' = s_down s /\ s_timeout s' = s_timeout s.
Proof.
  induction fuel as [|fuel IH]; intros s; cbn [clean_up_history]; destruct (s_hist s) as [|x r]; auto.
  destruct (negb _); [auto|]. destruct (history_might_match cs s); [auto|].
  destruct (remove_first_ev _ r) as [l|]; [|auto]. destruct (IH (set_hist l s)) as [H1 [H2 H3]]. auto.
Qed.

Lemma ev_ok_mono : forall h e x, ev_ok h x -> ev_ok (h ++ [e]) x.
Proof.
  intros h e x [H1 H2 H3 H4 H5 H6 H7]. constructor; auto. intros Hu. destruct (H6 Hu) as [H8 H9].
  split; [apply in_or_app; auto|exact H9].
Qed.

Lemma ev_ok_matched : forall h x, ev_ok h x -> ev_ok h (as_matched x).
Proof.
  intros h x Hx. unfold as_matched. destruct (kstate_eqb (es x) Down) eqn:E; [|exact Hx].
  apply kstate_eqb_eq in E. destruct Hx as [H1 H2 H3 H4 H5 H6 H7].
  constructor; cbn; auto; try discriminate.
  - right; right; left; reflexivity.
  - intros _. apply H7. left. exact E.
Qed.

Lemma seq_ok_remove : forall D h l i x, seq_ok D h l -> nth_error l i = Some x -> es x <> Up ->
  seq_ok D h (remove_at i l).
Proof.
  intros D h l i x [H1 H2 H3] Hx Hu. destruct (nth_error_split l i Hx) as [a [b [-> <-]]].
  rewrite remove_at_split. constructor.
  - apply Forall_app in H1. destruct H1 as [H1 H1']. apply Forall_app. split; [exact H1|exact (Forall_inv_tail H1')].
  - eapply closed_remove; eauto.
  - eapply separated_remove; eauto.
Qed.

Lemma prepare_seq_ok : forall D h e s, seq_ok D h (s_seq s) -> seq_ok D h (s_seq (prepare_up e s)).
Proof.
  intros D h e s H. unfold prepare_up. destruct (kstate_eqb (es e) Up); [|exact H].
  set (s1 := match s_timeout s with Some _ => _ | None => s end).
  assert (H1 : seq_ok D h (s_seq s1)).
  { unfold s1. destruct (s_timeout s) as [c|]; [destruct (ct_output c)|]; auto.
    cbn [s_seq set_seq]. change (seq_ok D h (map as_matched (s_seq s))). destruct H as [H1 H2 H3]. constructor.
    - apply Forall_map. eapply Forall_impl; [|exact H1]. intros x. apply ev_ok_matched.
    - apply closed_matched; auto.
    - apply separated_matched; auto. }
  clearbody s1. destruct (s_might s1); [exact H1|].
  destruct (find_key (s_seq s1) (ek e)) as [i|]; [|exact H1].
  destruct (nth_error (s_seq s1) i) as [x|] eqn:Ex; [|exact H1].
  destruct (kstate_eqb (es x) DownMatched) eqn:E; [|exact H1]. cbn [s_seq set_seq].
  eapply seq_ok_remove; eauto. apply kstate_eqb_eq in E. congruence.
Qed.

Lemma prepare_other : forall e s, s_down (prepare_up e s) = s_down s /\ s_timeout (prepare_up e s) = s_timeout s.
Proof.
  intros e s. unfold prepare_up. destruct (kstate_eqb (es e) Up); [|auto].
  set (s1 := match s_timeout s with Some _ => _ | None => s end).
  assert (H1 : s_down s1 = s_down s /\ s_timeout s1 = s_timeout s).
  { unfold s1. destruct (s_timeout s) as [c|] eqn:E; [destruct (ct_output c)|]; cbn; auto. }
  clearbody s1. destruct (s_might s1); [exact H1|].
  destruct (find_key (s_seq s1) (ek e)) as [i|]; [|exact H1].
  destruct (nth_error (s_seq s1) i) as [x|]; [|exact H1].
  destruct (kstate_eqb (es x) DownMatched); exact H1.
Qed.

Lemma unsuppress_trigs : forall P s, trigs P s -> trigs P (unsuppress s).
Proof.
  intros P s H k Hk. unfold trig_free, unsuppress. cbn. apply Forall_map. exact (H k Hk).
Qed.

Lemma merge_ok : forall D h e dev s, seq_ok D h (s_seq s) -> ek e <> k_timeout ->
  snd (merge_repeat e dev s) = true ->
  seq_ok D h (s_seq (fst (merge_repeat e dev s))) /\
  (es e = Down -> closed (other (ek e)) (s_seq (fst (merge_repeat e dev s)))).
Proof.
  intros D h e dev s Hs Ht. unfold merge_repeat.
  destruct (es e) eqn:Ee; try (intros _; split; [|discriminate]; destruct (dev =? s_rdev s)%Z; exact Hs).
  destruct (rfind_key (s_seq s) (ek e)) as [i|] eqn:Ei.
  - destruct (nth_error (s_seq s) i) as [x|] eqn:Ex.
    2:{ exfalso. clear -Ei Ex. unfold rfind_key in Ei. revert i Ei Ex.
        induction (s_seq s) as [|y l IH]; intros i Ei Ex; [discriminate|]. cbn in Ei.
        destruct (rfind_index (has_key (ek e)) l) as [j|]; [injection Ei as <-; eapply IH; eauto|].
        destruct (has_key (ek e) y); [|discriminate]. injection Ei as <-. discriminate. }
    destruct (rfind_last _ _ _ _ Ei Ex) as [a [b [Hl [Hk [Hi Hb]]]]].
    assert (Hx : ev_ok h x).
    { destruct Hs as [H1 _ _]. rewrite Hl in H1. apply Forall_app in H1. exact (Forall_inv (proj2 H1)). }
    assert (Hrem : es x <> Up -> seq_ok D h (remove_at i (s_seq s)) /\
                   closed (other (ek e)) (remove_at i (s_seq s))).
    { intros Hu. split; [eapply seq_ok_remove; eauto|]. rewrite Hl, <- Hi, remove_at_split.
      destruct Hs as [_ _ H3]. rewrite Hl in H3. rewrite <- Hk in Hb |- *.
      apply closed_removed; [|exact Hb|exact H3].
      destruct (eo_state _ _ Hx) as [E|[E|[E|E]]]; [left; exact E|contradiction|right; exact E|].
      exfalso. apply Ht. rewrite <- Hk. apply (eo_um _ _ Hx). exact E. }
    destruct (kstate_eqb (es x) Up) eqn:Eu; cbn [negb].
    + intros _. assert (Hc : closed (other (ek e)) (s_seq s)).
      { apply kstate_eqb_eq in Eu. destruct (eo_up _ _ Hx Eu) as [_ Hev].
        assert (Ex' : x = up (ek e)).
        { destruct x as [xk xs xv]. cbn in *. subst. rewrite Hev by assumption. reflexivity. }
        rewrite Hl, Ex'. apply closed_last. exact Hb. }
      destruct (dev =? no_device)%Z; [cbn; auto|]. destruct (dev =? s_rdev s)%Z; cbn; auto.
    + assert (Hu : es x <> Up) by (intros E; rewrite E in Eu; discriminate).
      destruct (Hrem Hu) as [R1 R2].
      destruct (s_might s); [cbn; discriminate|].
      destruct (negb (dev =? no_device)%Z); [|cbn; auto].
      destruct (dev =? s_pdev s)%Z; cbn;
        match goal with |- context [(dev =? ?x)%Z] => destruct (dev =? x)%Z end; cbn; auto; discriminate.
  - intros _. assert (Hc : closed (other (ek e)) (s_seq s)).
    { apply closed_other. intros [x [H1 [H2 _]]]. clear -Ei H1 H2. unfold rfind_key in Ei.
      induction (s_seq s) as [|y l IH]; [contradiction|]. cbn in Ei.
      destruct (rfind_index (has_key (ek e)) l) as [j|]; [discriminate|].
      unfold has_key at 1 in Ei. destruct (N.eqb_spec (ek y) (ek e)); [discriminate|].
      destruct H1 as [->|H1]; [contradiction|auto]. }
    destruct (dev =? no_device)%Z; [cbn; auto|]. destruct (dev =? s_rdev s)%Z; cbn; auto.
Qed.

Lemma update_active_quiet : forall s, quiet s -> quiet (update_active_contexts cs s).
Proof.
  intros s Hq. unfold update_active_contexts.
  destruct (eval_active cs (s_seq s) (s_client s) []) as [curr|];
    [|eapply quiet_same; [| |exact Hq]; reflexivity].
  assert (G1 : forall e ci s, ek e = k_ContextActive -> quiet s -> quiet (on_context_active_event cs e ci s)).
  { intros e ci s0 Ke H0. unfold on_context_active_event.
    destruct (nth_error cs ci) as [c|]; [|eapply quiet_same; [| |exact H0]; reflexivity].
    set (s1 := ub_unless _ s0).
    assert (H1 : quiet s1) by (eapply quiet_same; [| |exact H0]; unfold s1, ub_unless; destruct (forallb _ _); reflexivity).
    clearbody s1. destruct (find _ (cx_inputs c)) as [i|]; [|exact H1].
    assert (Hr : quiet (let '(s0, _) := continue_output_on_release e (Some ci) s1 in
                     release_triggered (ek e) (Some ci) s0)).
    { pose proof (continue_quiet e (Some ci) s1 H1) as Hf.
      destruct (continue_output_on_release e (Some ci) s1) as [s2 b]. apply release_quiet. exact Hf. }
    destruct (es e); try exact Hr.
    destruct (find_output cs (s_active s1) ci c (in_out i)) as [r o| |];
      [|exact H1|eapply quiet_same; [| |exact H1]; reflexivity].
    apply apply_output_quiet; [|exact H1]. intros _. unfold get_trigger_key. cbn [get_trigger_event]. rewrite Ke. discriminate. }
  assert (G : forall e l s, ek e = k_ContextActive -> quiet s ->
    quiet (fold_left (fun s p => on_context_active_event cs e p s) l s)).
  { intros e. induction l as [|x l IH]; intros s' Ke Hs; [exact Hs|]. cbn [fold_left]. apply IH; auto. }
  apply G; [reflexivity|]. apply G; [reflexivity|]. eapply quiet_same; [| |exact Hq]; reflexivity.
Qed.

Lemma seq_no_timeout_press : forall D h l, seq_ok D h l -> no_timeout_press l.
Proof. intros D h l [H _ _]. eapply Forall_impl; [|exact H]. intros x Hx. apply (eo_press _ _ Hx). Qed.

Lemma loop_quiet : forall e D h, no_own_key cs h ->
  (es e = Up \/ (es e = Down /\ D (ek e) = true /\ ek e <> k_timeout)) ->
  forall dev s n s', loop_run cs e dev s n s' ->
  seq_ok D h (s_seq s) -> trigs (holds_in e D (s_seq s)) s -> calm s -> quiet s -> quiet s'.
Proof.
  intros e D h Hown He.
  assert (Hd : es e = Down -> ek e <> k_timeout) by (intros E; destruct He as [E'|[_ [_ E']]]; [congruence|exact E']).
  induction 1 as [s Hn|s s' Hn Hr|s s1 n s' Hn Hr Hl IH]; intros Hok Ht Hc Hq; [exact Hq| |].
  - eapply round_quiet; eauto. eapply seq_no_timeout_press; eauto.
  - destruct (round_stuck e D h Hown He _ _ _ _ Hr Hok Ht Hc) as [H1 [H2 H3]].
    apply IH; auto. eapply round_quiet; eauto. eapply seq_no_timeout_press; eauto.
Qed.

Lemma drop_suffix : forall l, exists p, l = p ++ drop_up_matched l /\ Forall (fun x => es x = UpMatched) p.
Proof.
  induction l as [|x l [p [IH1 IH2]]]; [exists []; auto|]. cbn [drop_up_matched].
  destruct (kstate_eqb (es x) UpMatched) eqn:E; [|exists []; auto].
  exists (x :: p). split; [cbn; congruence|]. constructor; [|exact IH2]. apply kstate_eqb_eq. exact E.
Qed.

Lemma drop_seq_ok : forall D h l, seq_ok D h l -> seq_ok D h (drop_up_matched l).
Proof.
  intros D h l [H1 H2 H3]. destruct (drop_suffix l) as [p [E _]]. rewrite E in H1, H2, H3. constructor.
  - apply Forall_app in H1. apply H1.
  - eapply closed_app_r; eauto.
  - clear -H3. induction p as [|x p IH]; [exact H3|]. apply IH. exact (proj2 H3).
Qed.

(** The part which is not skipped. *)
Lemma process_rest : forall h e dev s,
  wf_event e -> ek e <> k_any -> ek e <> k_ContextActive -> is_mouse_wheel (ek e) = false ->
  no_own_key cs (h ++ [e]) -> no_none (s_seq s) -> no_none (s_hist s) ->
  seq_ok (is_down_after h) h (s_seq s) ->
  (es e = Down -> closed (other (ek e)) (s_seq s)) ->
  trigs (holds e (is_down_after (h ++ [e]))) s -> calm s -> quiet s ->
  rest (h ++ [e]) (process_input cs e dev s) /\ quiet (process_input cs e dev s).
Proof.
  intros h e dev s [He0 Hew] Hany Hctx Hwh Hown Hns Hnh Hok Hsep Ht Hc Hq.
  set (D' := is_down_after (h ++ [e])) in *.
  assert (HD' : forall k, D' k = if ek e =? k then kstate_eqb (es e) Down else is_down_after h k)
    by (intros k; apply is_down_snoc).
  assert (He : es e = Up \/ (es e = Down /\ D' (ek e) = true /\ ek e <> k_timeout)).
  { destruct Hew as [[E1 [E2 _]]|[E1 _]]; [right|left; exact E1]. split; [exact E1|]. split; [|exact E2].
    rewrite HD', N.eqb_refl, E1. reflexivity. }
  assert (Hev : ek e <> k_timeout -> ev e = 0).
  { intros Hn. destruct Hew as [[_ [_ [E|E]]]|[_ [E|[E|E]]]]; congruence. }
  assert (Hee : ev_ok (h ++ [e]) e).
  { constructor; auto.
    - destruct Hew as [[E _]|[E _]]; [left|right; left]; exact E.
    - intros E. destruct Hew as [[E' _]|[E' _]]; congruence.
    - intros _. split; [apply in_or_app; right; left; reflexivity|exact Hev].
    - intros [E|E]; destruct Hew as [[E1 [E2 _]]|[E1 _]]; congruence. }
  unfold process_input.
  set (s1 := set_seq (s_seq s ++ [e]) s).
  assert (S1 : seq_ok D' (h ++ [e]) (s_seq s1)).
  { destruct Hok as [H1 H2 H3]. cbn [s1 s_seq set_seq]. constructor.
    - apply Forall_app. split; [|auto]. eapply Forall_impl; [|exact H1]. intros x. apply ev_ok_mono.
    - eapply closed_snoc; [exact H2| |].
      + intros x Hx Hp Hd. rewrite HD' in Hd. destruct (N.eqb_spec (ek e) (ek x)) as [E|E]; [right|left; exact Hd].
        assert (Hnt : ek e <> k_timeout).
        { rewrite E. apply (eo_press _ _ (proj1 (Forall_forall _ _) H1 x Hx) Hp). }
        destruct He as [E1|[E1 _]]; [|rewrite E1 in Hd; discriminate].
        rewrite <- E. unfold up, ev0. destruct e as [a b c]. cbn in *. rewrite E1, (Hev Hnt). reflexivity.
      + intros [E|E]; destruct He as [E'|[E' [E2 _]]]; congruence.
    - apply closed_sep; [|exact H3]. intros [E|E]; destruct He as [E'|[E' _]]; try congruence. auto. }
  assert (T1 : trigs (holds e D') s1) by (apply (trigs_same _ s); [reflexivity|exact Ht]).
  assert (C1 : calm s1) by exact Hc.
  assert (Q1 : quiet s1) by (eapply quiet_same; [| |exact Hq]; reflexivity).
  assert (N1 : no_none (s_seq s1)).
  { cbn [s1 s_seq set_seq]. apply Forall_app. split; [exact Hns|]. constructor; [exact He0|constructor]. }
  assert (M1 : no_none (s_hist s1)) by exact Hnh.
  clearbody s1. clear s Hok Hsep Ht Hc Hq Hns Hnh.
  set (s2 := add_to_history cs e s1).
  assert (A2 : s_seq s2 = s_seq s1 /\ s_down s2 = s_down s1 /\ s_timeout s2 = s_timeout s1 /\
               s_onrel s2 = s_onrel s1 /\ no_none (s_hist s2)).
  { assert (Hap : no_none (s_hist s1 ++ [e])) by (apply Forall_app; split; [exact M1|constructor; [exact He0|constructor]]).
    unfold s2, add_to_history. destruct (_ && _); [|auto 6].
    destruct (es e); match goal with |- context [if ?b then _ else _] => destruct b end; cbn; auto 6. }
  destruct A2 as [A21 [A22 [A23 [A24 A25]]]].
  assert (C2 : calm s2) by (intros Htl; rewrite A23; exact (C1 Htl)).
  assert (Q2 : quiet s2) by (eapply quiet_same; eauto).
  assert (T2 : trigs (holds e D') s2) by (eapply trigs_same; eauto).
  clearbody s2. clear T1 C1 Q1 M1.
  set (s3 := update_active_contexts cs s2).
  pose proof (update_active_frame cs s2) as F3. fold s3 in F3.
  assert (E3 : s_seq s3 = s_seq s2 /\ s_hist s3 = s_hist s2) by (unfold same_ctx in F3; tauto).
  destruct E3 as [E3 E3h].
  assert (T3 : trigs (holds e D') s3).
  { apply update_active_trigs; [|exact T2]. intros k Hk. right; left; exact Hk. }
  assert (C3 : calm s3) by (apply update_active_calm; exact C2).
  assert (Q3 : quiet s3) by (apply update_active_quiet; exact Q2).
  assert (S3 : seq_ok D' (h ++ [e]) (s_seq s3)) by (rewrite E3, A21; exact S1).
  assert (H3 : no_none (s_hist s3)) by (rewrite E3h; exact A25).
  clearbody s3. clear s2 A21 A22 A23 A24 A25 C2 Q2 T2 F3 E3 E3h S1 N1 s1.
  set (s4 := prepare_up e s3).
  assert (S4 : seq_ok D' (h ++ [e]) (s_seq s4)) by (apply prepare_seq_ok; exact S3).
  destruct (prepare_other e s3) as [P41 P42]. fold s4 in P41, P42.
  assert (T4 : trigs (holds e D') s4) by (eapply trigs_same; eauto).
  assert (C4 : calm s4) by (intros Htl; rewrite P42; exact (C3 Htl)).
  assert (X4 : s_onrel s4 = s_onrel s3 /\ s_hist s4 = s_hist s3).
  { unfold s4, prepare_up. destruct (kstate_eqb (es e) Up); [|auto].
    set (t1 := match s_timeout s3 with Some _ => _ | None => s3 end).
    assert (H1 : s_onrel t1 = s_onrel s3 /\ s_hist t1 = s_hist s3).
    { unfold t1. destruct (s_timeout s3) as [c|]; [destruct (ct_output c)|]; cbn; auto. }
    clearbody t1. destruct (s_might t1); [exact H1|].
    destruct (find_key (s_seq t1) (ek e)) as [i|]; [|exact H1].
    destruct (nth_error (s_seq t1) i) as [x|]; [|exact H1].
    destruct (kstate_eqb (es x) DownMatched); exact H1. }
  destruct X4 as [X41 X42].
  assert (Q4 : quiet s4) by (eapply quiet_same; eauto).
  assert (H4 : no_none (s_hist s4)) by (rewrite X42; exact H3).
  clearbody s4. clear s3 S3 P41 P42 T3 C3 Q3 H3 X41 X42.
  set (s5 := unsuppress s4).
  assert (T5 : trigs (holds_in e D' (s_seq s5)) s5).
  { eapply trigs_mono; [|apply unsuppress_trigs; exact T4]. intros k Hk. left; exact Hk. }
  assert (S5 : seq_ok D' (h ++ [e]) (s_seq s5)) by exact S4.
  assert (C5 : calm s5) by exact C4.
  assert (Q5 : quiet s5) by (eapply quiet_same; [| |exact Q4]; reflexivity).
  assert (N5 : no_none (s_seq s5)).
  { destruct S5 as [H _ _]. eapply Forall_impl; [|exact H]. intros x Hx. apply (eo_none _ _ Hx). }
  assert (H5 : no_none (s_hist s5)) by exact H4.
  clearbody s5. clear s4 S4 T4 C4 Q4 H4.
  destruct (apply_loop_run cs e dev (weight (s_seq s5)) s5 (Nat.le_refl _) N5 H5) as [n [_ [Hrun _]]].
  set (s6 := apply_loop cs (weight (s_seq s5)) e dev s5) in *.
  destruct (loop_stuck e D' (h ++ [e]) Hown He dev s5 n s6 Hrun S5 T5 C5) as [S6 [C6 T6]].
  pose proof (loop_quiet e D' (h ++ [e]) Hown He dev s5 n s6 Hrun S5 T5 C5 Q5) as Q6.
  clearbody s6. clear s5 T5 S5 C5 Q5 N5 H5 Hrun.
  unfold finish_input.
  set (s7 := if kstate_eqb (es e) Up then release_triggered (ek e) None s6 else s6).
  assert (T7 : trigs (fun k => D' k = true \/ by_context k) s7).
  { unfold s7. destruct (kstate_eqb (es e) Up) eqn:Eu.
    - eapply trigs_mono; [|apply release_trigs; [exact Hctx|exact T6]].
      intros k [[Hk|[Hk|[Hk _]]] Hn]; tauto.
    - eapply trigs_mono; [|exact T6]. intros k [Hk|[Hk|[_ Hk]]]; auto. rewrite Hk in Eu. discriminate. }
  assert (C7 : calm s7) by (unfold s7; destruct (kstate_eqb (es e) Up); [apply release_calm|]; exact C6).
  assert (Q7 : quiet s7) by (unfold s7; destruct (kstate_eqb (es e) Up); [apply release_quiet|]; exact Q6).
  assert (E7 : s_seq s7 = s_seq s6).
  { unfold s7. destruct (kstate_eqb (es e) Up); [|reflexivity]. unfold release_triggered.
    cbn [s_timeout set_down set_buf]. destruct (s_timeout s6) as [c|]; [destruct (ct_trigger c =? ek e)|]; reflexivity. }
  assert (S7 : seq_ok D' (h ++ [e]) (s_seq s7)) by (rewrite E7; exact S6).
  clearbody s7. clear s6 S6 T6 C6 Q6 E7.
  set (s8 := update_active_contexts cs s7).
  pose proof (update_active_frame cs s7) as F8. fold s8 in F8.
  assert (E8 : s_seq s8 = s_seq s7) by (unfold same_ctx in F8; tauto).
  assert (T8 : trigs (fun k => D' k = true \/ by_context k) s8) by (apply update_active_trigs; auto).
  assert (C8 : calm s8) by (apply update_active_calm; exact C7).
  assert (Q8 : quiet s8) by (apply update_active_quiet; exact Q7).
  assert (S8 : seq_ok D' (h ++ [e]) (drop_up_matched (s_seq s8))) by (rewrite E8; apply drop_seq_ok; exact S7).
  clearbody s8. clear s7 T7 C7 Q7 S7 F8 E8. cbn [s_seq set_seq].
  set (s9 := set_seq (drop_up_matched (s_seq s8)) s8).
  set (s10 := set_reapplied false match drop_up_matched (s_seq s8) with [] => set_timeout None s9 | _ => s9 end).
  assert (X : s_seq s10 = drop_up_matched (s_seq s8) /\ s_down s10 = s_down s8 /\ calm s10 /\ quiet s10).
  { unfold s10, s9. destruct (drop_up_matched (s_seq s8)) as [|x l]; cbn; (split; [reflexivity|]; split; [reflexivity|]); split.
    - intros _. reflexivity.
    - constructor; cbn; [exact (q_rel _ Q8)|discriminate].
    - exact C8.
    - eapply quiet_same; [| |exact Q8]; reflexivity. }
  destruct X as [X1 [X2 [X3 X4]]]. clearbody s10.
  destruct (clean_up_same (length (s_hist s10)) s10) as [Y1 [Y2 Y3]].
  assert (Y4 : s_onrel (clean_up_history cs (length (s_hist s10)) s10) = s_onrel s10).
  { clear. generalize (length (s_hist s10)). intros n. revert s10.
    induction n as [|n IH]; intros s; cbn [clean_up_history]; destruct (s_hist s) as [|x r]; auto.
    destruct (negb _); [auto|]. destruct (history_might_match cs s); [auto|].
    destruct (remove_first_ev _ r) as [l|]; [|auto]. rewrite IH. reflexivity. }
  split; [constructor|].
  - rewrite Y1, X1. exact S8.
  - apply (trigs_same _ s8); [congruence|exact T8].
  - intros Htl. rewrite Y3. exact (X3 Htl).
  - eapply quiet_same; [exact Y4|exact Y3|exact X4].
Qed.


Lemma rest_weaken : forall h e s s',
  (forall k, k <> k_timeout -> is_down_after (h ++ [e]) k = false -> is_down_after h k = false) ->
  s_seq s' = s_seq s -> seq_ok (is_down_after h) h (s_seq s) ->
  seq_ok (is_down_after (h ++ [e])) (h ++ [e]) (s_seq s').
Proof.
  intros h e s s' HD -> [H1 H2 H3]. constructor.
  - eapply Forall_impl; [|exact H1]. intros x. apply ev_ok_mono.
  - eapply closed_mono; [exact H2|]. intros x Hx Hp. apply HD.
    exact (eo_press _ _ (proj1 (Forall_forall _ _) H1 x Hx) Hp).
  - exact H3.
Qed.

Lemma suppress_same : forall e s, let s' := fst (suppress_not_timeout e s) in
  s_seq s' = s_seq s /\ s_down s' = s_down s /\ s_hist s' = s_hist s /\
  (calm s -> calm s') /\ (quiet s -> quiet s') /\
  (snd (suppress_not_timeout e s) = false -> ek e = k_timeout).
Proof.
  intros e s. unfold suppress_not_timeout. destruct (s_timeout s) as [c|] eqn:Et;
    [|cbn; repeat (split; [auto|]); discriminate].
  assert (G : forall c', ct_trigger c' = ct_trigger c ->
    (calm s -> calm (set_timeout (Some c') s)) /\ (quiet s -> quiet (set_timeout (Some c') s))).
  { intros c' Hc'. split.
    - intros Hc Htl. specialize (Hc Htl). congruence.
    - intros [Q1 Q2]. constructor; [exact Q1|]. cbn. intros c0 E0. injection E0 as <-. rewrite Hc'. auto. }
  destruct (is_not_timeout (es (ct_event c))); [|cbn; repeat (split; [auto|]); discriminate].
  destruct (N.eqb_spec (ek e) k_timeout) as [E|E].
  - destruct (ev (ct_event c) =? ev e); cbn [fst snd].
    + match goal with |- context [set_timeout (Some ?x) s] => destruct (G x eq_refl) end.
      cbn. repeat (split; [auto|]). auto.
    + repeat (split; [auto|]). auto.
  - destruct (_ && _); cbn [fst snd].
    + match goal with |- context [set_timeout (Some ?x) s] => destruct (G x eq_refl) end.
      cbn. repeat (split; [auto|]). discriminate.
    + repeat (split; [auto|]). discriminate.
Qed.

Lemma merge_same : forall e dev s, let s' := fst (merge_repeat e dev s) in
  s_down s' = s_down s /\ s_hist s' = s_hist s /\ s_timeout s' = s_timeout s /\ s_onrel s' = s_onrel s /\
  (snd (merge_repeat e dev s) = false -> s_seq s' = s_seq s /\ es e = Down) /\
  (es e <> Down -> s_seq s' = s_seq s) /\ (no_none (s_seq s) -> no_none (s_seq s')).
Proof.
  intros e dev s.
  assert (R : forall i, no_none (s_seq s) -> no_none (remove_at i (s_seq s))).
  { intros i H. apply Forall_forall. intros x Hx. apply In_remove_at in Hx. exact (proj1 (Forall_forall _ _) H x Hx). }
  unfold merge_repeat. destruct (es e) eqn:Ee;
    try (destruct (dev =? s_rdev s)%Z; cbn; repeat (split; [auto; try discriminate|]); auto; fail).
  destruct (rfind_key (s_seq s) (ek e)) as [i|].
  - destruct (match nth_error (s_seq s) i with Some _ => _ | None => _ end).
    + destruct (s_might s); [cbn; intuition (auto; congruence)|].
      destruct (negb (dev =? no_device)%Z); [|cbn; intuition (auto; congruence)].
      destruct (dev =? s_pdev s)%Z; cbn;
        match goal with |- context [(dev =? ?x)%Z] => destruct (dev =? x)%Z end; cbn; intuition (auto; congruence).
    + destruct (dev =? no_device)%Z; [cbn; intuition (auto; congruence)|].
      destruct (dev =? s_rdev s)%Z; cbn; intuition (auto; congruence).
  - destruct (dev =? no_device)%Z; [cbn; intuition (auto; congruence)|].
    destruct (dev =? s_rdev s)%Z; cbn; intuition (auto; congruence).
Qed.

Lemma update_rest : forall h e dev s,
  wf_event e -> ek e <> k_any -> ek e <> k_ContextActive -> is_mouse_wheel (ek e) = false ->
  no_own_key cs (h ++ [e]) -> no_none (s_seq s) -> no_none (s_hist s) ->
  is_down_after h k_timeout = false -> rest h s -> quiet s ->
  rest (h ++ [e]) (fst (update cs e dev s)) /\ quiet (fst (update cs e dev s)).
Proof.
  intros h e dev s Hwf Hany Hctx Hwh Hown Hns Hnh Htime [R1 R2 R3] Hq.
  unfold update. set (s0 := set_exit (advance_exit e (s_exit s)) s).
  assert (Q0 : quiet s0) by (eapply quiet_same; [| |exact Hq]; reflexivity).
  assert (C0 : calm s0) by exact R3.
  assert (T0 : trigs (fun k => is_down_after h k = true \/ by_context k) s0) by exact R2.
  assert (S0 : seq_ok (is_down_after h) h (s_seq s0)) by exact R1.
  assert (N0 : no_none (s_seq s0)) by exact Hns.
  assert (H0 : no_none (s_hist s0)) by exact Hnh.
  clearbody s0. clear s R1 R2 R3 Hq Hns Hnh.
  cut (rest (h ++ [e]) (apply_input cs e dev s0) /\ quiet (apply_input cs e dev s0)).
  { intros [[X1 X2 X3] X4]. cbn [fst]. split; [constructor; auto|].
    eapply quiet_same; [| |exact X4]; reflexivity. }
  set (D' := is_down_after (h ++ [e])).
  assert (HD' : forall k, D' k = if ek e =? k then kstate_eqb (es e) Down else is_down_after h k)
    by (intros k; apply is_down_snoc).
  assert (He : es e = Up \/ (es e = Down /\ D' (ek e) = true /\ ek e <> k_timeout)).
  { destruct Hwf as [_ [[E1 [E2 _]]|[E1 _]]]; [right|left; exact E1]. split; [exact E1|]. split; [|exact E2].
    rewrite HD', N.eqb_refl, E1. reflexivity. }
  assert (TH : trigs (holds e D') s0).
  { eapply trigs_mono; [|exact T0]. intros k [Hk|Hk]; [|right; left; exact Hk]. unfold holds. rewrite HD'.
    destruct (N.eqb_spec (ek e) k) as [E|E]; [|auto].
    destruct He as [E1|[E1 _]]; [right; right; auto|left; rewrite E1; reflexivity]. }
  assert (Hdown : es e = Down -> (forall k, k <> k_timeout -> D' k = false -> is_down_after h k = false) /\
     forall k, is_down_after h k = true -> D' k = true).
  { intros E1. split; intros k; [intros _|]; rewrite HD'; destruct (ek e =? k); auto; rewrite E1; cbn; congruence. }
  unfold apply_input.
  pose proof (continue_frame e None s0) as F1.
  pose proof (continue_trigs _ e None s0 (holds_event e D' He) TH) as T1.
  pose proof (continue_quiet e None s0 Q0) as Q1.
  assert (G1 : snd (continue_output_on_release e None s0) = false ->
               fst (continue_output_on_release e None s0) = s0 /\ es e = Down).
  { unfold continue_output_on_release. destruct (find_index _ (s_onrel s0)) as [i|]; [|discriminate].
    destruct (es e); try (destruct (nth_error (s_onrel s0) i); discriminate). auto. }
  assert (G1' : ek e = k_timeout -> fst (continue_output_on_release e None s0) = s0).
  { intros Ek. unfold continue_output_on_release.
    destruct (find_index _ (s_onrel s0)) as [i|] eqn:Ei; [exfalso|reflexivity].
    destruct (find_index_In _ _ _ _ Ei) as [x [_ [Hx1 Hx2]]]. apply andb_prop in Hx2. destruct Hx2 as [Hx2 _].
    apply N.eqb_eq in Hx2. apply (proj1 (Forall_forall _ _) (q_rel _ Q0) x Hx1). congruence. }
  destruct (continue_output_on_release e None s0) as [s1 go1]. cbn [fst snd] in *.
  assert (E1 : s_seq s1 = s_seq s0 /\ s_hist s1 = s_hist s0 /\ s_timeout s1 = s_timeout s0)
    by (unfold same_app in F1; tauto).
  destruct E1 as [E1 [E1h E1t]].
  assert (C1 : calm s1) by (intros Htl; rewrite E1t; exact (C0 Htl)).
  destruct go1; cbn [negb].
  2:{ destruct (G1 eq_refl) as [-> Ed]. destruct (Hdown Ed) as [Hd1 Hd2]. split; [|exact Q0].
      constructor; [eapply rest_weaken; eauto| |exact C0].
      eapply trigs_mono; [|exact T0]. intros k [Hk|Hk]; [left; auto|right; exact Hk]. }
  pose proof (suppress_same e s1) as F2.
  destruct (suppress_not_timeout e s1) as [s2 go2]. cbn [fst snd] in F2.
  destruct F2 as [E2 [E2d [E2h [C2 [Q2 G2]]]]]. specialize (C2 C1). specialize (Q2 Q1).
  destruct go2; cbn [negb].
  2:{ specialize (G2 eq_refl). specialize (G1' G2). subst s1.
      split; [|exact Q2]. constructor; [|  |exact C2].
      - eapply rest_weaken; [|exact E2|exact S0]. intros k Hk. rewrite is_down_snoc.
        destruct (N.eqb_spec (ek e) k); [congruence|auto].
      - apply (trigs_same _ s0); [exact E2d|]. eapply trigs_mono; [|exact T0].
        intros k [Hk|Hk]; [|right; exact Hk]. rewrite is_down_snoc.
        destruct (N.eqb_spec (ek e) k) as [E|E]; [|auto].
        exfalso. congruence. }
  assert (S2 : seq_ok (is_down_after h) h (s_seq s2)) by (rewrite E2, E1; exact S0).
  assert (T2 : trigs (holds e D') s2) by (eapply trigs_same; eauto).
  pose proof (merge_same e dev s2) as F3.
  assert (M3 : ek e <> k_timeout -> snd (merge_repeat e dev s2) = true ->
    seq_ok (is_down_after h) h (s_seq (fst (merge_repeat e dev s2))) /\
    (es e = Down -> closed (other (ek e)) (s_seq (fst (merge_repeat e dev s2))))).
  { intros Hn. apply merge_ok; auto. }
  destruct (merge_repeat e dev s2) as [s3 go3]. cbn [fst snd] in *.
  destruct F3 as [F31 [F32 [F33 [F34 [F35 [F36 F37]]]]]].
  assert (C3 : calm s3) by (intros Htl; rewrite F33; exact (C2 Htl)).
  assert (Q3 : quiet s3) by (eapply quiet_same; eauto).
  destruct go3; cbn [negb].
  2:{ destruct (F35 eq_refl) as [F Ed]. destruct (Hdown Ed) as [Hd1 Hd2]. split; [|exact Q3].
      constructor; [eapply rest_weaken; eauto| |exact C3].
      apply (trigs_same _ s2); [exact F31|].
      eapply trigs_mono; [|exact T2]. intros k [Hk|[Hk|[_ Hk]]]; [left; exact Hk|right; exact Hk|congruence]. }
  assert (S3 : seq_ok (is_down_after h) h (s_seq s3) /\ (es e = Down -> closed (other (ek e)) (s_seq s3))).
  { destruct He as [Eu|[Ed [_ Hn]]]; [|apply M3; auto].
    rewrite F36 by congruence. split; [exact S2|congruence]. }
  destruct S3 as [S3 S3'].
  apply process_rest; auto.
  - apply F37. rewrite E2, E1. exact N0.
  - rewrite F32, E2h, E1h. exact H0.
  - eapply trigs_same; eauto.
Qed.

Lemma contexts_rest : forall h il s, rest h s -> quiet s ->
  rest h (fst (set_active_client_contexts cs il s)) /\ quiet (fst (set_active_client_contexts cs il s)).
Proof.
  intros h il s [R1 R2 R3] Hq. unfold set_active_client_contexts. cbn [fst].
  set (s0 := set_client il s).
  assert (Q0 : quiet s0) by (eapply quiet_same; [| |exact Hq]; reflexivity).
  assert (C0 : calm s0) by exact R3.
  assert (T0 : trigs (fun k => is_down_after h k = true \/ by_context k) s0) by exact R2.
  assert (S0 : seq_ok (is_down_after h) h (s_seq s0)) by exact R1.
  clearbody s0. clear s R1 R2 R3 Hq.
  set (s1 := update_active_contexts cs s0).
  pose proof (update_active_frame cs s0) as F1. fold s1 in F1.
  assert (E1 : s_seq s1 = s_seq s0) by (unfold same_ctx in F1; tauto).
  assert (T1 : trigs (fun k => is_down_after h k = true \/ by_context k) s1) by (apply update_active_trigs; auto).
  assert (C1 : calm s1) by (apply update_active_calm; exact C0).
  assert (Q1 : quiet s1) by (apply update_active_quiet; exact Q0).
  unfold cancel_inactive_output_on_release. split; [constructor|].
  - cbn. rewrite E1. exact S0.
  - apply (trigs_same _ s1); [reflexivity|exact T1].
  - exact C1.
  - destruct Q1 as [Q1 Q2]. constructor; [|exact Q2]. cbn. apply Forall_forall. intros x Hx.
    apply filter_In in Hx. exact (proj1 (Forall_forall _ _) Q1 x (proj1 Hx)).
Qed.

Lemma init_rest : rest [] init_state /\ quiet init_state.
Proof.
  split.
  - constructor; [constructor; constructor| |intros _; reflexivity]. intros k _. constructor.
  - constructor; [constructor|discriminate].
Qed.

Lemma inputs_snoc : forall l c, inputs (l ++ [c]) = inputs l ++ inputs [c].
Proof. intros l c. unfold inputs. apply flat_map_app. Qed.

Lemma no_own_key_prefix : forall h h', no_own_key cs (h ++ h') -> no_own_key cs h.
Proof.
  intros h h' H c i o Hc Hg. destruct (H c i o Hc Hg) as [H1 H2]. split; [exact H1|].
  destruct H2 as [H2|H2]; [left; exact H2|right]. intros k Hk. apply H2. apply in_or_app; auto.
Qed.

Lemma keys_only_wheels : forall l, Forall keys_only l -> wheels_ok l.
Proof.
  intros l H. left. generalize (fun _ : key => @None N). induction H as [|c l Hc _ IH]; intros p; [exact Logic.I|].
  destruct c as [e dev|il|f]; cbn; [|apply IH|apply IH]. destruct Hc as [_ [_ ->]]. apply IH.
Qed.

Lemma timeout_not_down : forall l, Forall (wf_call cs) l -> is_down_after (inputs l) k_timeout = false.
Proof.
  induction l as [|c l IH] using rev_ind; intros H; [reflexivity|].
  apply Forall_app in H. destruct H as [H1 H2]. rewrite inputs_snoc.
  destruct c as [e dev|il|f]; cbn [inputs flat_map app]; rewrite ?app_nil_r; auto.
  rewrite is_down_snoc. destruct (N.eqb_spec (ek e) k_timeout) as [E|E]; [|auto].
  destruct (Forall_inv H2) as [[_ [[E1 [E2 _]]|[E1 _]]] _]; [contradiction|]. rewrite E1. reflexivity.
Qed.

Lemma run_rest : wf_config cs -> forall l, Forall (wf_call cs) l -> Forall keys_only l ->
  no_own_key cs (inputs l) ->
  rest (inputs l) (fst (run cs l init_state)) /\ quiet (fst (run cs l init_state)).
Proof.
  intros Hwf. induction l as [|c l IH] using rev_ind; intros Hl Hk Hown; [exact init_rest|].
  apply Forall_app in Hl. destruct Hl as [Hl Hc]. apply Forall_app in Hk. destruct Hk as [Hk Hkc].
  rewrite inputs_snoc in Hown |- *.
  destruct (IH Hl Hk (no_own_key_prefix _ _ Hown)) as [R Q]. clear IH.
  rewrite run_snoc. cbn [fst]. apply Forall_inv in Hc. apply Forall_inv in Hkc.
  destruct c as [e dev|il|f]; cbn [inputs flat_map app] in *; rewrite ?app_nil_r in *.
  - destruct Hc as [Hc _]. destruct Hkc as [K1 [K2 K3]]. cbn [do_call].
    destruct (reach_inv cs Hwf l Hl (keys_only_wheels l Hk)) as [m Hi].
    apply update_rest; auto; [apply (inv_seq _ _ _ Hi)|apply (inv_hnone _ _ _ Hi)|apply timeout_not_down; auto].
  - cbn [do_call]. apply contexts_rest; auto.
  - contradiction.
Qed.

End WithContexts.

(** Whatever is held was triggered by a key which is held. *)
Lemma held_by_pressed : forall cs l k,
  wf_config cs -> balanced_config cs -> all_inputs plain_input cs -> no_own_key cs (inputs l) ->
  Forall (wf_call cs) l -> Forall keys_only l -> k <> k_timeout ->
  is_down_after (snd (run cs l init_state)) k = true ->
  exists o, In o (s_down (fst (run cs l init_state))) /\ od_key o = k /\ od_temp o = false /\
    (is_down_after (inputs l) (get_trigger_key (od_trigger o)) = true \/
     (get_trigger_key (od_trigger o) = k_ContextActive /\ ~ all_inputs no_context_active cs)).
Proof.
  intros cs l k Hwf Hb Hp Hown Hl Hk Ht Hd.
  assert (Hv : Forall (fun c => is_validate c = false) l).
  { eapply Forall_impl; [|exact Hk]. intros [e dev|il|f] Hc; [reflexivity|reflexivity|contradiction]. }
  destruct (held_covers_consumer cs Hb l k Hv Ht Hd) as [o [H1 [H2 H3]]].
  exists o. repeat (split; [assumption|]).
  destruct (run_rest cs Hp Hwf l Hl Hk Hown) as [[_ R _] _].
  set (P := fun k => is_down_after (inputs l) k = true \/ by_context cs k) in R.
  set (tk := get_trigger_key (od_trigger o)).
  destruct (is_down_after (inputs l) tk) eqn:E; [left; reflexivity|right].
  destruct (N.eq_dec tk k_ContextActive) as [Ec|Ec].
  - split; [exact Ec|]. intros Hn. 
    assert (Hf : trig_free tk (fst (run cs l init_state))).
    { apply R. intros [H|[_ H]]; [congruence|contradiction]. }
    exact (proj1 (Forall_forall _ _) Hf o H1 eq_refl).
  - exfalso. assert (Hf : trig_free tk (fst (run cs l init_state))).
    { apply R. intros [H|[H _]]; congruence. }
    exact (proj1 (Forall_forall _ _) Hf o H1 eq_refl).
Qed.
