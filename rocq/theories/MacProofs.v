(** Proofs about the devices on macOS. *)
From Coq Require Import List Arith NArith ZArith Bool Lia.
From Verif Require Import Base Key Stage Mac MacSpec.
Import ListNotations.
Local Open Scope N_scope.

(** * Output *)

Lemma report_eqb_eq : forall a b, report_eqb a b = true <-> a = b.
Proof. intros [] []; cbn; split; intro H; congruence. Qed.

Lemma existsb_eqb : forall u l, existsb (N.eqb u) l = true <-> In u l.
Proof.
  intros u l. rewrite existsb_exists. split.
  - intros (x & H & E). apply N.eqb_eq in E. now subst.
  - intro H. exists u. split; [assumption|apply N.eqb_refl].
Qed.
Lemma in_insert : forall u l x, In x (insert_usage u l) <-> x = u \/ In x l.
Proof.
  intros u l x. unfold insert_usage. destruct (existsb (N.eqb u) l) eqn:E.
  - apply existsb_eqb in E. split; [auto|]. intros [ -> | H]; assumption.
  - rewrite in_app_iff. cbn. intuition.
Qed.
Lemma in_erase : forall u l x, In x (erase_usage u l) <-> x <> u /\ In x l.
Proof.
  intros u l x. unfold erase_usage. rewrite filter_In. rewrite negb_true_iff, N.eqb_neq. tauto.
Qed.
Lemma in_toggle : forall r u (b : bool) m r' x,
  In x (ma_reports (toggle_key r u b m) r') <->
  (if report_eqb r r' && (u =? x) then b = true else In x (ma_reports m r')).
Proof.
  intros r u b m r' x. unfold toggle_key. cbn [ma_reports].
  destruct (report_eqb r' r) eqn:E.
  - apply report_eqb_eq in E. subst r'. assert (report_eqb r r = true) as -> by now apply report_eqb_eq.
    cbn [andb]. destruct b; [rewrite in_insert|rewrite in_erase]; destruct (N.eqb_spec u x) as [->|F].
    + split; [reflexivity|now left].
    + split; [|now right]. intros [H|H]; [congruence|assumption].
    + split; [intros [H _]; congruence|discriminate].
    + split; [now intros [_ H]|]. intro H. split; [congruence|assumption].
  - assert (report_eqb r r' = false) as ->; [|reflexivity].
    destruct (report_eqb r r') eqn:F; [|reflexivity]. apply report_eqb_eq in F. subst.
    assert (report_eqb r' r' = true) by now apply report_eqb_eq. congruence.
Qed.

Lemma special_function : forall k,
  is_function_key k = true <-> special_usage k special <> None.
Proof.
  intro k. unfold is_function_key, F1_m, F12_m, ArrowRight_m, ArrowUp_m, Backspace_m. split.
  - intro H. rewrite !orb_true_iff, !andb_true_iff, !N.leb_le, N.eqb_eq in H.
    cbn [special special_usage].
    repeat (match goal with
      | |- (if ?b =? ?c then _ else _) <> _ => destruct (N.eqb_spec b c); [discriminate|]
      end). lia.
  - cbn [special special_usage]. intro H.
    repeat (match goal with
      | H : (if ?b =? ?c then _ else _) <> _ |- _ => destruct (N.eqb_spec b c); [subst; reflexivity|]
      end). congruence.
Qed.
Lemma special_table : forall k t, special_usage k special = Some t -> function_usage k = t.
Proof.
  intros k t. cbn [special special_usage].
  repeat (match goal with
    | |- (if ?b =? ?c then _ else _) = _ -> _ => destruct (N.eqb_spec b c); [subst; cbv; congruence|]
    end). discriminate.
Qed.
Lemma special_differs : forall k t, special_usage k special = Some t -> t <> (RKeyboard, k).
Proof.
  intros k t. cbn [special special_usage].
  repeat (match goal with
    | |- (if ?b =? ?c then _ else _) = _ -> _ =>
        destruct (N.eqb_spec b c); [subst; let H := fresh in intro H; injection H as <-; discriminate|]
    end). discriminate.
Qed.

(** Which keys are in the list: those which are down with their other meaning. *)
Definition otherwise (h : list mstep) (k : N) : Prop :=
  exists t, down_as h k = Some t /\ special_usage k special = Some t.
Record good (h : list mstep) (m : mac) : Prop := {
  gd_fn : ma_fn m = fn_held h;
  gd_toggle : ma_toggle_fn m = fn_swapped h;
  gd_nodup : NoDup (ma_hold m);
  gd_hold : forall k, In k (ma_hold m) <-> otherwise h k;
  gd_lit : forall r u, In u (ma_reports m r) <-> lit h r u = true
}.

Lemma remove_found : forall k l i,
  NoDup l -> find_index (N.eqb k) l = Some i ->
  In k l /\ NoDup (remove_at i l) /\ (forall x, In x (remove_at i l) <-> In x l /\ x <> k).
Proof.
  induction l as [|a l IH]; intros i Hn H; [discriminate H|]. cbn [find_index] in H.
  inversion Hn as [|? ? Ha Hl]; subst. destruct (N.eqb_spec k a) as [->|Hk].
  - injection H as <-. cbn [remove_at]. repeat split; try (now left); try assumption.
    + now right.
    + intros ->. contradiction.
    + intros ([E|E] & F); [congruence|assumption].
  - destruct (find_index (N.eqb k) l) as [j|] eqn:E; [|discriminate H]. injection H as <-.
    destruct (IH j Hl eq_refl) as (I1 & I2 & I3). cbn [remove_at]. repeat split.
    + now right.
    + constructor; [|assumption]. rewrite I3. tauto.
    + destruct H as [->|H]; [now left|]. right. now apply I3.
    + destruct H as [->|H]; [congruence|]. now apply I3.
    + intros ([->|H] & F); [now left|]. right. now apply I3.
Qed.
Lemma not_found : forall k l, find_index (N.eqb k) l = None -> ~ In k l.
Proof.
  induction l as [|a l IH]; intros H F; [contradiction|]. cbn [find_index] in H.
  destruct (N.eqb_spec k a) as [->|Hk]; [discriminate H|].
  destruct (find_index (N.eqb k) l) eqn:E; [discriminate H|].
  destruct F as [->|F]; [congruence|]. now apply IH.
Qed.

Lemma down_as_other : forall h e k, k <> ek e -> down_as (MaKey e :: h) k = down_as h k.
Proof. intros h e k H. cbn [down_as]. destruct (N.eqb_spec (ek e) k); [congruence|reflexivity]. Qed.

Lemma good_toggle : forall h x m m' r u b,
  acts h x = Some (r, u, b) ->
  (forall r u, In u (ma_reports m' r) <-> lit h r u = true) ->
  (forall r', ma_reports m r' = ma_reports (toggle_key r u b m') r') ->
  forall r u, In u (ma_reports m r) <-> lit (x :: h) r u = true.
Proof.
  intros h x m m' r u b Ha Hl Hm r' u'. rewrite Hm, in_toggle. cbn [lit]. rewrite Ha.
  destruct (report_eqb r r' && (u =? u')); [reflexivity|apply Hl].
Qed.

Lemma step_good : forall h x m,
  good h m -> pressed_once (x :: h) -> good (x :: h) (mac_step x m).
Proof.
  intros h x m G Ho. destruct x as [e|page usage value|b]; cbn [mac_step].
  - destruct Ho as [Ho _]. destruct G as [Gf Gt Gn Gh Gl]. unfold mac_send.
    destruct (kstate_eqb (es e) Down) eqn:Ed.
    + assert (es e = Down) as Es by (destruct (es e); (reflexivity || discriminate Ed)).
      specialize (Ho Es).
      assert (forall k, In k (ma_hold m) -> k <> ek e) as Hne.
      { intros k Hk ->. apply Gh in Hk. destruct Hk as (t & Hk & _). congruence. }
      assert (down_as (MaKey e :: h) (ek e) = Some (meaning h (ek e))) as Hd.
      { cbn [down_as]. now rewrite N.eqb_refl, Ed. }
      destruct (is_function_key (ek e)) eqn:Ef.
      * apply special_function in Ef. destruct (special_usage (ek e) special) as [t|] eqn:Et; [|congruence].
        clear Ef. unfold toggle_function_key. rewrite Ed. rewrite Gt, Gf.
        destruct (Bool.eqb (fn_swapped h) (fn_held h)) eqn:Eq.
        -- rewrite (special_table _ _ Et). destruct t as [r u].
           assert (meaning h (ek e) = (r, u)) as Hm by (unfold meaning; now rewrite Et, Eq).
           constructor; try assumption; try reflexivity.
           ++ cbn [toggle_key ma_hold]. apply NoDup_rev in Gn.
              rewrite <- (rev_involutive (ma_hold m ++ _)). apply NoDup_rev. rewrite rev_app_distr.
              constructor; [|assumption]. rewrite <- in_rev. intro F. now apply Hne in F.
           ++ intro k. cbn [toggle_key ma_hold]. rewrite in_app_iff. split.
              ** intros [Hk|[<-|[]]].
                 --- pose proof (Hne _ Hk). apply Gh in Hk. unfold otherwise in *. rewrite down_as_other by assumption. assumption.
                 --- exists (r, u). now rewrite Hd, Hm.
              ** intros (t & Hk & Ht). destruct (N.eq_dec k (ek e)) as [->|Hk']; [right; now left|].
                 left. apply Gh. exists t. rewrite <- (down_as_other h e) by assumption. now split.
           ++ eapply good_toggle; [|exact Gl|intro; reflexivity]. cbn [acts]. now rewrite Ed, Hm.
        -- assert (meaning h (ek e) = (RKeyboard, ek e)) as Hm by (unfold meaning; now rewrite Et, Eq).
           constructor; try assumption; try reflexivity.
           ++ intro k. cbn [toggle_key ma_hold]. split.
              ** intro Hk. pose proof (Hne _ Hk). apply Gh in Hk. unfold otherwise in *. now rewrite down_as_other.
              ** intros (t' & Hk & Ht). destruct (N.eq_dec k (ek e)) as [->|Hk'].
                 --- rewrite Hd, Hm in Hk. injection Hk as <-. now apply special_differs in Ht.
                 --- apply Gh. exists t'. rewrite <- (down_as_other h e) by assumption. now split.
           ++ eapply good_toggle; [|exact Gl|intro; reflexivity]. cbn [acts]. now rewrite Ed, Hm.
      * assert (special_usage (ek e) special = None) as Et.
        { destruct (special_usage (ek e) special) eqn:E; [|reflexivity].
          assert (is_function_key (ek e) = true) by (apply special_function; congruence). congruence. }
        assert (meaning h (ek e) = (RKeyboard, ek e)) as Hm by (unfold meaning; now rewrite Et).
        constructor; try assumption; try reflexivity.
        -- intro k. cbn [toggle_key ma_hold]. split.
           ** intro Hk. pose proof (Hne _ Hk). apply Gh in Hk. unfold otherwise in *. now rewrite down_as_other.
           ** intros (t' & Hk & Ht). destruct (N.eq_dec k (ek e)) as [->|Hk']; [congruence|].
              apply Gh. exists t'. rewrite <- (down_as_other h e) by assumption. now split.
        -- eapply good_toggle; [|exact Gl|intro; reflexivity]. cbn [acts]. now rewrite Ed, Hm.
    + clear Ho.
      assert (down_as (MaKey e :: h) (ek e) = None) as Hd.
      { cbn [down_as]. now rewrite N.eqb_refl, Ed. }
      destruct (is_function_key (ek e)) eqn:Ef.
      * apply special_function in Ef. destruct (special_usage (ek e) special) as [t|] eqn:Et; [|congruence].
        clear Ef. unfold toggle_function_key. rewrite Ed.
        destruct (find_index (N.eqb (ek e)) (ma_hold m)) as [i|] eqn:Ei.
        -- rewrite (special_table _ _ Et). destruct t as [r u].
           destruct (remove_found _ _ _ Gn Ei) as (R1 & R2 & R3).
           constructor; try assumption; try reflexivity.
           ++ intro k. cbn [toggle_key ma_hold]. rewrite R3. split.
              ** intros (Hk & Hne). apply Gh in Hk. unfold otherwise in *. now rewrite down_as_other.
              ** intros (t & Hk & Ht). assert (k <> ek e) as Hne by (intros ->; congruence).
                 split; [|assumption]. apply Gh. exists t. rewrite <- (down_as_other h e) by assumption. now split.
           ++ eapply good_toggle; [|exact Gl|intro; reflexivity]. cbn [acts]. rewrite Ed.
              apply Gh in R1. destruct R1 as (t & R1 & Ht). rewrite R1. congruence.
        -- apply not_found in Ei.
           constructor; try assumption; try reflexivity.
           ++ intro k. cbn [toggle_key ma_hold]. split.
              ** intro Hk. assert (k <> ek e) by (intros ->; contradiction).
                 apply Gh in Hk. unfold otherwise in *. now rewrite down_as_other.
              ** intros (t' & Hk & Ht). assert (k <> ek e) as Hne by (intros ->; congruence).
                 apply Gh. exists t'. rewrite <- (down_as_other h e) by assumption. now split.
           ++ eapply good_toggle; [|exact Gl|intro; reflexivity]. cbn [acts]. rewrite Ed.
              destruct (down_as h (ek e)) as [t'|] eqn:E; [|reflexivity].
              assert (t' = t \/ t' = (RKeyboard, ek e)) as [->| ->].
              { clear - E Et. induction h as [|x h IH]; [discriminate E|]. destruct x as [e'|? ? ?|?]; cbn [down_as] in E; auto.
                destruct (ek e' =? ek e); auto. destruct (kstate_eqb (es e') Down); [|discriminate E].
                injection E as <-. unfold meaning. rewrite Et. destruct (Bool.eqb _ _); auto. }
              ** exfalso. apply Ei. apply Gh. exists t. now split.
              ** reflexivity.
      * assert (special_usage (ek e) special = None) as Et.
        { destruct (special_usage (ek e) special) eqn:E; [|reflexivity].
          assert (is_function_key (ek e) = true) by (apply special_function; congruence). congruence. }
        constructor; try assumption; try reflexivity.
        -- intro k. cbn [toggle_key ma_hold]. split.
           ** intro Hk. assert (k <> ek e) as Hne.
              { intros ->. apply Gh in Hk. destruct Hk as (t & _ & Hk). congruence. }
              apply Gh in Hk. unfold otherwise in *. now rewrite down_as_other.
           ** intros (t' & Hk & Ht). assert (k <> ek e) as Hne by (intros ->; congruence).
              apply Gh. exists t'. rewrite <- (down_as_other h e) by assumption. now split.
        -- eapply good_toggle; [|exact Gl|intro; reflexivity]. cbn [acts]. rewrite Ed.
           destruct (down_as h (ek e)) as [t'|] eqn:E; [|reflexivity].
           assert (t' = (RKeyboard, ek e)) as ->; [|reflexivity].
           clear - E Et. induction h as [|x h IH]; [discriminate E|]. destruct x as [e'|? ? ?|?]; cbn [down_as] in E; auto.
           destruct (ek e' =? ek e); auto. destruct (kstate_eqb (es e') Down); [|discriminate E].
           injection E as <-. unfold meaning. now rewrite Et.
  - unfold mac_forward. destruct (N.eqb_spec page 0x0C) as [->|H1]; [|destruct (N.eqb_spec page 0xFF) as [->|H2]].
    + destruct G as [Gf Gt Gn Gh Gl]. constructor; try assumption.
      eapply good_toggle; [|exact Gl|intro; reflexivity]. reflexivity.
    + destruct G as [Gf Gt Gn Gh Gl]. constructor; try assumption; try reflexivity.
      cbn [ma_reports]. eapply good_toggle; [|exact Gl|intro; reflexivity]. reflexivity.
    + destruct G as [Gf Gt Gn Gh Gl]. constructor; try assumption.
      * rewrite Gf. cbn [fn_held].
        repeat (match goal with |- context [match ?p with _ => _ end] => is_var p; destruct p end);
          try reflexivity; try congruence.
      * intros r u. rewrite Gl. cbn [lit].
        assert (acts h (MaForward page usage value) = None) as ->; [|reflexivity].
        cbn [acts].
        repeat (match goal with |- context [match ?p with _ => _ end] => is_var p; destruct p end);
          try reflexivity; try congruence.
  - destruct G as [Gf Gt Gn Gh Gl]. constructor; try assumption; reflexivity.
Qed.

Lemma new_good : good [] new_mac.
Proof.
  constructor; try reflexivity.
  - constructor.
  - intro k. split; [intros []|]. intros (t & H & _). discriminate H.
  - intros r u. split; [intros []|]. intro H. discriminate H.
Qed.
Lemma run_snoc : forall l x m, mac_run (l ++ [x]) m = mac_step x (mac_run l m).
Proof. intros l x m. unfold mac_run. now rewrite fold_left_app. Qed.
Lemma once_tail : forall x h, pressed_once (x :: h) -> pressed_once h.
Proof. intros [] h H; cbn in H; tauto. Qed.
Lemma run_good : forall h, pressed_once h -> good h (mac_run (rev h) new_mac).
Proof.
  induction h as [|x h IH]; intro H; [apply new_good|].
  cbn [rev]. rewrite run_snoc. apply step_good; [|assumption]. apply IH. now apply once_tail in H.
Qed.

(** What is lit is held by a source. *)
Lemma acts_forward : forall h p u v,
  acts h (MaForward p u v) =
  if p =? 0x0C then Some (RConsumer, u, negb (v =? 0)%Z)
  else if p =? 0xFF then Some (RTopCase, u, negb (v =? 0)%Z) else None.
Proof.
  intros h p u v. destruct (N.eqb_spec p 0x0C) as [->|H1]; [reflexivity|].
  destruct (N.eqb_spec p 0xFF) as [->|H2]; [reflexivity|]. cbn [acts].
  repeat (match goal with |- context [match ?p with _ => _ end] => is_var p; destruct p end);
    try reflexivity; try congruence.
Qed.
Definition target (h : list mstep) (s : source) : option (report * N) :=
  match s with
  | SKey k => down_as h k
  | SForward p u =>
      if source_held h s then
        if p =? 0x0C then Some (RConsumer, u) else if p =? 0xFF then Some (RTopCase, u) else None
      else None
  end.
Lemma source_eqb_eq : forall a b, source_eqb a b = true <-> a = b.
Proof.
  intros [a|p u] [b|q v]; cbn [source_eqb]; try (split; congruence).
  - rewrite N.eqb_eq. split; congruence.
  - rewrite andb_true_iff, !N.eqb_eq. split; [intros [-> ->]; reflexivity|]. intro H. injection H as <- <-. now split.
Qed.
Lemma down_held : forall h k t, down_as h k = Some t -> source_held h (SKey k) = true.
Proof.
  induction h as [|x h IH]; intros k t H; [discriminate H|]. destruct x as [e|p u v|b]; cbn [source_held source_of source_eqb presses down_as] in *.
  - destruct (ek e =? k); [|eauto]. destruct (kstate_eqb (es e) Down); [reflexivity|discriminate H].
  - eauto.
  - eauto.
Qed.
Lemma target_held : forall h s t, target h s = Some t -> source_held h s = true.
Proof.
  intros h [k|p u] t H; cbn [target] in H; [eapply down_held; eassumption|].
  destruct (source_held h (SForward p u)); [reflexivity|discriminate H].
Qed.
Lemma target_other : forall x h s, source_of x <> Some s -> target (x :: h) s = target h s.
Proof.
  intros x h s H. destruct s as [k|p u]; cbn [target].
  - destruct x as [e|? ? ?|?]; cbn [down_as source_of] in *; try reflexivity.
    destruct (N.eqb_spec (ek e) k); [congruence|reflexivity].
  - cbn [source_held]. destruct (source_of x) as [s'|]; [|reflexivity].
    destruct (source_eqb s' (SForward p u)) eqn:E; [|reflexivity]. apply source_eqb_eq in E. congruence.
Qed.
Lemma lit_target : forall h r u,
  pressed_once h -> lit h r u = true -> exists s, target h s = Some (r, u).
Proof.
  induction h as [|x h IH]; intros r u Ho H; [discriminate H|]. cbn [lit] in H.
  pose proof (once_tail _ _ Ho) as Ho'.
  assert (forall s, source_of x = Some s -> acts h x = None \/
    (exists r' u' b, acts h x = Some (r', u', b) /\
       (b = true -> target (x :: h) s = Some (r', u')) /\
       (target h s <> None -> target h s = Some (r', u')))) as Hx.
  { intros s Hs. destruct x as [e|p v z|b]; cbn [source_of] in Hs; [| |discriminate Hs]; injection Hs as <-.
    - right. cbn [acts target down_as]. rewrite N.eqb_refl.
      destruct (kstate_eqb (es e) Down) eqn:Ed.
      + destruct (meaning h (ek e)) as [r' u'] eqn:Em. exists r', u', true. repeat split.
        intro F. destruct Ho as [Ho _]. exfalso. apply F, Ho. destruct (es e); (reflexivity || discriminate Ed).
      + destruct (down_as h (ek e)) as [[r' u']|] eqn:Es.
        * exists r', u', false. repeat split. discriminate.
        * exists RKeyboard, (ek e), false. repeat split; [discriminate|congruence].
    - rewrite acts_forward. cbn [target source_held source_of]. 
      assert (source_eqb (SForward p v) (SForward p v) = true) as -> by now apply source_eqb_eq. cbn [presses].
      destruct (p =? 0x0C); [|destruct (p =? 0xFF)]; [right|right|now left].
      + exists RConsumer, v, (negb (z =? 0)%Z). repeat split; [intros ->; reflexivity|].
        destruct (source_held h (SForward p v)); congruence.
      + exists RTopCase, v, (negb (z =? 0)%Z). repeat split; [intros ->; reflexivity|].
        destruct (source_held h (SForward p v)); congruence. }
  assert (lit h r u = true -> (forall b, acts h x <> Some (r, u, b)) -> exists s, target (x :: h) s = Some (r, u)) as Hkeep.
  { intros Hl Hne. destruct (IH r u Ho' Hl) as (s & Hs).
    assert (source_of x <> Some s) as Hd.
    { intro F. destruct (Hx s F) as [Hn|(r' & u' & b & Ha & _ & Ht)].
      - assert (target h s = None) as Ht; [|congruence].
        destruct x as [e|p v z|b]; cbn [source_of] in F; [| |discriminate F]; injection F as <-.
        + cbn [acts] in Hn. destruct (kstate_eqb (es e) Down); [discriminate Hn|].
          destruct (down_as h (ek e)); discriminate Hn.
        + rewrite acts_forward in Hn. cbn [target]. destruct (p =? 0x0C); [discriminate Hn|].
          destruct (p =? 0xFF); [discriminate Hn|]. now destruct (source_held _ _).
      - rewrite Ht in Hs by congruence. injection Hs as -> ->. now apply (Hne b). }
    exists s. now rewrite target_other. }
  destruct (acts h x) as [[[r' u'] b]|] eqn:Ea.
  - destruct (report_eqb r' r && (u' =? u)) eqn:Em.
    + apply andb_true_iff in Em. destruct Em as [E1 E2]. apply report_eqb_eq in E1. apply N.eqb_eq in E2. subst r' u' b.
      destruct (source_of x) as [s|] eqn:Es; [|destruct x; discriminate].
      destruct (Hx s eq_refl) as [F|(r' & u' & b & F & Ft & _)]; [discriminate F|].
      injection F as <- <- <-. exists s. now apply Ft.
    + apply Hkeep; [assumption|]. intros b' F. injection F as -> -> ->.
      apply andb_false_iff in Em. rewrite N.eqb_refl in Em.
      destruct Em as [Em|Em]; [|discriminate Em].
      assert (report_eqb r r = true) by now apply report_eqb_eq. congruence.
  - apply Hkeep; [assumption|]. intros b F. discriminate F.
Qed.

(** What was pressed stays until it is released. *)
Lemma lit_kept : forall q x p r u,
  acts p x = Some (r, u, true) ->
  (forall q1 y q2, q = q1 ++ y :: q2 -> acts (q2 ++ x :: p) y <> Some (r, u, false)) ->
  lit (q ++ x :: p) r u = true.
Proof.
  induction q as [|y q IH]; intros x p r u Ha Hq; cbn [app lit].
  - rewrite Ha. assert (report_eqb r r = true) as -> by now apply report_eqb_eq. now rewrite N.eqb_refl.
  - assert (lit (q ++ x :: p) r u = true) as Hl.
    { apply IH; [assumption|]. intros q1 z q2 ->. apply (Hq (y :: q1)). reflexivity. }
    pose proof (Hq [] y q eq_refl) as Hy.
    destruct (acts (q ++ x :: p) y) as [[[r' u'] b]|]; [|assumption].
    destruct (report_eqb r' r && (u' =? u)) eqn:Em; [|assumption].
    apply andb_true_iff in Em. destruct Em as [E1 E2]. apply report_eqb_eq in E1. apply N.eqb_eq in E2. subst.
    destruct b; [reflexivity|congruence].
Qed.

(** * Input *)

Lemma swap_twice : forall iso b p u, swap_keys iso b p (swap_keys iso b p u) = u.
Proof.
  intros iso b p u. unfold swap_keys. destruct (iso && (p =? 7) && b); [|reflexivity].
  destruct (N.eqb_spec u 0x64) as [->|H1]; [reflexivity|].
  destruct (N.eqb_spec u 0x35) as [->|H2]; [reflexivity|].
  destruct (N.eqb_spec u 0x64); [congruence|]. destruct (N.eqb_spec u 0x35); [congruence|reflexivity].
Qed.

Lemma nodup_app : forall (a b : list N), NoDup a -> NoDup b -> (forall x, In x a -> ~ In x b) -> NoDup (a ++ b).
Proof.
  induction a as [|x a IH]; intros b Ha Hb H; [assumption|]. inversion Ha as [|? ? Hx Ha']; subst. cbn [app].
  constructor.
  - rewrite in_app_iff. intros [F|F]; [contradiction|]. apply (H x); [now left|assumption].
  - apply IH; try assumption. intros y Hy. apply H. now right.
Qed.

Section Devices.
Variable virtual : N -> bool.
Variable desc : N -> device_desc.
Variable wanted : N -> bool.
Variable builtin : N -> bool.
Variable iso : bool.

Notation grab := (grab_wanted virtual desc wanted).
Definition fit (d : N) : bool :=
  negb (virtual d) && negb (match dev_name (desc d) with [] => true | _ => false end) && wanted d.
Lemma fit_to_grab : forall d, fit d = true <-> to_grab virtual desc wanted d.
Proof.
  intro d. unfold fit, to_grab. rewrite !andb_true_iff, !negb_true_iff.
  destruct (dev_name (desc d)); intuition; try discriminate; congruence.
Qed.
Definition nonzero (l : list N) : list N := List.filter (fun d => negb (d =? 0)) l.
Definition has (l : list N) (d : N) : bool := existsb (N.eqb d) l.

Lemma zero_out : forall d l i,
  d <> 0 -> NoDup (nonzero l) -> find_index (N.eqb d) l = Some i ->
  length (update_at i (fun _ => 0) l) = length l /\
  NoDup (nonzero (update_at i (fun _ => 0) l)) /\
  (forall x, x <> 0 -> In x (update_at i (fun _ => 0) l) <-> In x l /\ x <> d).
Proof.
  intros d l i Hd. revert i. induction l as [|a l IH]; intros i Hn H; [discriminate H|].
  cbn [find_index] in H. destruct (N.eqb_spec d a) as [<-|Hk].
  - injection H as <-. cbn [update_at]. cbn [nonzero List.filter] in Hn.
    destruct (N.eqb_spec d 0) as [|_]; [congruence|]. cbn [negb] in Hn. inversion Hn as [|? ? Ha Hl]; subst.
    split; [reflexivity|]. split.
    + cbn [nonzero List.filter]. exact Hl.
    + intros x Hx. cbn [In]. split.
      * intros [F|F]; [congruence|]. split; [now right|]. intros ->. apply Ha. unfold nonzero.
        apply filter_In. split; [assumption|]. now apply negb_true_iff, N.eqb_neq.
      * intros ([F|F] & F2); [congruence|]. now right.
  - destruct (find_index (N.eqb d) l) as [j|] eqn:E; [|discriminate H]. injection H as <-.
    cbn [nonzero List.filter] in Hn.
    assert (NoDup (nonzero l)) as Hl.
    { destruct (negb (a =? 0)); [inversion Hn; assumption|assumption]. }
    destruct (IH j Hl eq_refl) as (I1 & I2 & I3). cbn [update_at length]. split; [now rewrite I1|]. split.
    + cbn [nonzero List.filter]. destruct (N.eqb_spec a 0) as [|Ha]; cbn [negb] in *; [assumption|].
      inversion Hn as [|? ? Hna _]; subst. constructor; [|assumption].
      intro F. apply filter_In in F. destruct F as [F _]. apply I3 in F; [|assumption].
      apply Hna. apply filter_In. split; [tauto|]. now apply negb_true_iff, N.eqb_neq.
    + intros x Hx. cbn [In]. rewrite I3 by assumption. intuition congruence.
Qed.

Lemma in_find : forall d l, In d l -> find_index (N.eqb d) l <> None.
Proof. intros d l H F. now apply not_found in F. Qed.
Lemma found_in : forall d l i, find_index (N.eqb d) l = Some i -> nth_error l i = Some d.
Proof.
  induction l as [|a l IH]; intros i H; [discriminate H|]. cbn [find_index] in H.
  destruct (N.eqb_spec d a) as [<-|Hk]; [now injection H as <-|].
  destruct (find_index (N.eqb d) l) as [j|]; [|discriminate H]. injection H as <-. cbn. now apply IH.
Qed.

Lemma grab_spec : forall ok l prev grabbed open,
  NoDup l -> ~ In 0 l -> NoDup (nonzero prev) ->
  exists prev',
    grab ok l prev grabbed open =
      (prev', grabbed ++ List.filter (fun d => fit d && (has prev d || ok d)) l,
       open ++ List.filter (fun d => fit d && negb (has prev d) && ok d) l) /\
    length prev' = length prev /\
    (forall x, x <> 0 -> In x prev' <-> In x prev /\ ~ (In x l /\ fit x = true)).
Proof.
  intros ok l. induction l as [|d l IH]; intros prev grabbed open Hn Hz Hp.
  - exists prev. cbn [grab_wanted List.filter]. rewrite !app_nil_r. repeat split; try tauto.
  - inversion Hn as [|? ? Hd Hl]; subst.
    assert (d <> 0) as Hd0 by (intros ->; apply Hz; now left).
    assert (~ In 0 l) as Hz' by (intro; apply Hz; now right).
    assert (fit d = false -> grab ok (d :: l) prev grabbed open = grab ok l prev grabbed open) as Hskip.
    { unfold fit. cbn [grab_wanted]. destruct (virtual d); [reflexivity|]. destruct (dev_name (desc d)); [reflexivity|].
      destruct (wanted d); [discriminate|reflexivity]. }
    destruct (fit d) eqn:Ef.
    + assert (grab ok (d :: l) prev grabbed open =
        match find_index (N.eqb d) prev with
        | None => if ok d then grab ok l prev (grabbed ++ [d]) (open ++ [d]) else grab ok l prev grabbed open
        | Some i => grab ok l (update_at i (fun _ => 0) prev) (grabbed ++ [d]) open
        end) as ->.
      { unfold fit in Ef. cbn [grab_wanted]. destruct (virtual d); [discriminate Ef|].
        destruct (dev_name (desc d)); [discriminate Ef|]. destruct (wanted d); [reflexivity|discriminate Ef]. }
      clear Hskip. cbn [List.filter]. rewrite Ef. cbn [andb].
      destruct (find_index (N.eqb d) prev) as [i|] eqn:Ei.
      * assert (In d prev) as Hin by (apply found_in in Ei; now apply nth_error_In in Ei).
        assert (has prev d = true) as -> by now apply existsb_eqb.
        cbn [negb andb orb]. destruct (zero_out d prev i Hd0 Hp Ei) as (Z1 & Z2 & Z3).
        destruct (IH (update_at i (fun _ => 0) prev) (grabbed ++ [d]) open Hl Hz' Z2) as (prev' & -> & I2 & I3).
        exists prev'. split; [|split; [congruence|]].
        -- assert (forall x, In x l -> has (update_at i (fun _ => 0) prev) x = has prev x) as Hs.
           { intros x Hx. unfold has. apply eq_true_iff_eq. rewrite !existsb_eqb. rewrite Z3 by (intros ->; contradiction).
             split; [tauto|]. intro F. split; [assumption|]. intros ->. contradiction. }
           rewrite <- app_assoc. cbn [app]. 
           rewrite (filter_ext_in (fun x => fit x && (has (update_at i (fun _ => 0) prev) x || ok x))
             (fun x => fit x && (has prev x || ok x)) l) by (intros x Hx; now rewrite Hs).
           rewrite (filter_ext_in (fun x => fit x && negb (has (update_at i (fun _ => 0) prev) x) && ok x)
             (fun x => fit x && negb (has prev x) && ok x) l) by (intros x Hx; now rewrite Hs).
           reflexivity.
        -- intros x Hx. rewrite I3, Z3 by assumption. cbn [In]. split.
           ++ intros ((A1 & A2) & A3). split; [assumption|]. intros ([<-|B] & C); [congruence|]. tauto.
           ++ intros (A1 & A2). repeat split; [assumption| |tauto]. intros ->. apply A2. split; [now left|assumption].
      * apply not_found in Ei.
        assert (has prev d = false) as ->.
        { destruct (has prev d) eqn:F; [|reflexivity]. apply existsb_eqb in F. contradiction. }
        cbn [negb andb orb]. destruct (ok d).
        -- destruct (IH prev (grabbed ++ [d]) (open ++ [d]) Hl Hz' Hp) as (prev' & -> & I2 & I3).
           exists prev'. split; [|split; [assumption|]].
           ++ rewrite <- !app_assoc. reflexivity.
           ++ intros x Hx. rewrite I3 by assumption. cbn [In]. intuition congruence.
        -- destruct (IH prev grabbed open Hl Hz' Hp) as (prev' & -> & I2 & I3).
           exists prev'. split; [reflexivity|split; [assumption|]].
           intros x Hx. rewrite I3 by assumption. cbn [In]. intuition congruence.
    + rewrite Hskip by reflexivity. cbn [List.filter]. rewrite Ef. cbn [andb].
      destruct (IH prev grabbed open Hl Hz' Hp) as (prev' & -> & I2 & I3).
      exists prev'. split; [reflexivity|split; [assumption|]].
      intros x Hx. rewrite I3 by assumption. cbn [In]. split.
      * intros (A1 & A2). split; [assumption|]. intros ([->|B] & C); [congruence|tauto].
      * tauto.
Qed.

Lemma ungrab_spec : forall prev descs open,
  length descs = length prev ->
  exists open', ungrab prev descs open = Some open' /\
    (NoDup open -> NoDup open') /\
    (forall x, In x open' <-> In x open /\ ~ (x <> 0 /\ In x prev)).
Proof.
  induction prev as [|d prev IH]; intros descs open Hl.
  - exists open. cbn. repeat split; tauto.
  - destruct descs as [|s descs]; [discriminate Hl|]. cbn [length] in Hl. injection Hl as Hl. cbn [ungrab tl].
    destruct (N.eqb_spec d 0) as [->|Hd].
    + destruct (IH descs open Hl) as (o & E1 & E2 & E3). exists o. split; [assumption|]. split; [assumption|].
      intro x. rewrite E3. cbn [In]. intuition congruence.
    + destruct (IH descs (List.filter (fun x => negb (x =? d)) open) Hl) as (o & E1 & E2 & E3).
      exists o. split; [assumption|]. split; [intro; apply E2, NoDup_filter; assumption|].
      intro x. rewrite E3, filter_In, negb_true_iff, N.eqb_neq. cbn [In]. intuition congruence.
Qed.

(** What holds of the grabbed devices at any time. *)
Record sound (g : mgrab) : Prop := {
  sd_descs : mg_descs g = map desc (mg_devices g);
  sd_nodup : NoDup (mg_devices g);
  sd_zero : ~ In 0 (mg_devices g);
  sd_once : NoDup (mg_open g);
  sd_open : forall x, In x (mg_open g) <-> In x (mg_devices g)
}.

Lemma nonzero_id : forall l, ~ In 0 l -> nonzero l = l.
Proof.
  induction l as [|a l IH]; intro H; [reflexivity|]. cbn [nonzero List.filter].
  destruct (N.eqb_spec a 0) as [->|Ha]; [exfalso; apply H; now left|]. cbn [negb]. f_equal. apply IH.
  intro F. apply H. now right.
Qed.

Lemma update_sound : forall ok present g,
  sound g -> NoDup present -> ~ In 0 present ->
  exists g', mac_update virtual desc wanted ok present g = Some g' /\ sound g' /\
    mg_devices g' = List.filter (fun d => fit d && (has (mg_devices g) d || ok d)) present /\
    mg_queue g' = mg_queue g /\ mg_changed g' = mg_changed g.
Proof.
  intros ok present g [S1 S2 S3 S4 S5] Hn Hz. unfold mac_update.
  destruct (grab_spec ok present (mg_devices g) [] (mg_open g) Hn Hz) as (prev' & -> & G2 & G3).
  { now rewrite nonzero_id. }
  destruct (ungrab_spec prev' (mg_descs g)
    (mg_open g ++ List.filter (fun d => fit d && negb (has (mg_devices g) d) && ok d) present)) as (o & -> & U2 & U3).
  { rewrite S1, map_length. congruence. }
  eexists. split; [reflexivity|]. cbn [app mg_devices mg_queue mg_changed]. split; [|repeat split].
  assert (forall x, has (mg_devices g) x = true <-> In x (mg_devices g)) as Hh by (intro; apply existsb_eqb).
  constructor; cbn [mg_devices mg_descs mg_open].
  - reflexivity.
  - now apply NoDup_filter.
  - intro F. apply filter_In in F. tauto.
  - apply U2. apply nodup_app; [assumption|now apply NoDup_filter|].
    intros x A B. apply filter_In in B. destruct B as [_ B]. rewrite !andb_true_iff, negb_true_iff in B.
    apply S5, Hh in A. destruct B as [[_ B] _]. congruence.
  - intro x. rewrite U3, in_app_iff, S5, !filter_In, !andb_true_iff, negb_true_iff, orb_true_iff, Hh.
    rewrite <- not_true_iff_false, Hh.
    split.
    + intros ([A|A] & B).
      * assert (x <> 0) as Hx by (intros ->; contradiction).
        rewrite G3 in B by assumption.
        destruct (in_dec N.eq_dec x present) as [Hp|Hp]; [|tauto].
        destruct (fit x); [tauto|]. exfalso. apply B. repeat split; try assumption. intros [_ F]. discriminate F.
      * tauto.
    + intros (A & B & [C|C]).
      * split; [now left|]. intros (D & F). apply G3 in F; [|assumption]. tauto.
      * destruct (in_dec N.eq_dec x (mg_devices g)) as [Hp|Hp].
        -- split; [now left|]. intros (D & F). apply G3 in F; [|assumption]. tauto.
        -- split; [right; tauto|]. intros (D & F). apply G3 in F; [|assumption]. tauto.
Qed.

Notation step := (g_step virtual desc wanted builtin iso).
Notation grun := (g_run virtual desc wanted builtin iso).
Lemma g_update_sound : forall ok present g,
  sound g -> NoDup present -> ~ In 0 present ->
  exists g', g_update virtual desc wanted ok present g = Some g' /\ sound g' /\ mg_queue g' = mg_queue g /\
    (mg_changed g = false -> g' = g).
Proof.
  intros ok present g S Hn Hz. unfold g_update. destruct (mg_changed g).
  - destruct (update_sound ok present g S Hn Hz) as (g' & -> & [A1 A2 A3 A4 A5] & _ & H2 & H3).
    eexists. split; [reflexivity|]. split; [constructor; assumption|]. split; [assumption|discriminate].
  - exists g. repeat split; try apply S; auto.
Qed.
Lemma step_sound : forall x g, sound g -> real_devices x ->
  exists g' a, step x g = Some (g', a) /\ sound g'.
Proof.
  intros x g S H. pose proof S as [A1 A2 A3 A4 A5]. destruct x as [d p u v| |ok present]; cbn [g_step].
  - eexists _, _. split; [reflexivity|]. constructor; assumption.
  - eexists _, _. split; [reflexivity|]. constructor; assumption.
  - destruct H as [Hn Hz]. destruct (mg_queue g) as [|e q].
    + destruct (g_update_sound ok present g S Hn Hz) as (g' & -> & S' & _). eexists _, _. split; [reflexivity|assumption].
    + destruct (mac_key_event e).
      * destruct (g_update_sound ok present (MG (mg_devices g) (mg_descs g) q (mg_changed g) (mg_open g))) as (g' & -> & S' & _); try assumption.
        { constructor; assumption. }
        eexists _, _. split; [reflexivity|assumption].
      * eexists _, _. split; [reflexivity|]. constructor; assumption.
Qed.
Lemma run_sound : forall l g, sound g -> Forall real_devices l ->
  exists g' a, grun l g = Some (g', a) /\ sound g'.
Proof.
  induction l as [|x l IH]; intros g S H; cbn [g_run]; [eauto|]. inversion H as [|? ? Hx Hl]; subst.
  destruct (step_sound x g S Hx) as (g' & a & -> & S'). destruct (IH g' S' Hl) as (g'' & b & -> & S''). eauto.
Qed.
Lemma new_sound : sound new_mgrab.
Proof. constructor; cbn; try constructor; tauto. Qed.

Lemma step_told : forall x g g' a,
  sound g -> step x g = Some (g', a) ->
  match x with
  | GInput d _ _ _ => In d (mg_devices g)
  | GChanged => True
  | GTurn _ _ => real_devices x /\ (mg_changed g = true -> (length (mg_queue g) <= 1)%nat)
  end ->
  map tell a ++ map tell (waiting g') = map tell (waiting g) ++ came_in desc builtin iso [x].
Proof.
  intros x g g' a Sd H Hc. destruct x as [d p u v| |ok present]; cbn [g_step came_in] in *.
  - injection H as <- <-. unfold waiting, mac_input. cbn [mg_queue mg_descs]. rewrite !map_app. cbn [map app].
    f_equal. f_equal. unfold tell. cbn [fst snd me_page me_usage me_value me_index]. f_equal.
    destruct (find_index (N.eqb d) (mg_devices g)) as [i|] eqn:Ei; [|now apply in_find in Ei].
    apply found_in in Ei. rewrite (sd_descs g Sd). now apply map_nth_error.
  - injection H as <- <-. now rewrite app_nil_r.
  - rewrite app_nil_r. destruct Hc as [[Hn Hz] Hc]. unfold waiting in *. destruct (mg_queue g) as [|e q] eqn:Eq.
    + destruct (g_update_sound ok present g Sd Hn Hz) as (g'' & E & S' & Q & _).
      rewrite E in H. injection H as <- <-. now rewrite Q, Eq.
    + destruct (mac_key_event e).
      * destruct (g_update_sound ok present (MG (mg_devices g) (mg_descs g) q (mg_changed g) (mg_open g))) as (g'' & E & S' & Q & C); try assumption.
        { destruct Sd. constructor; assumption. }
        rewrite E in H. injection H as <- <-. cbn [mg_queue mg_changed] in *. rewrite Q. cbn [map app]. f_equal.
        destruct (mg_changed g).
        -- specialize (Hc eq_refl). destruct q; [reflexivity|]. cbn in Hc. lia.
        -- now rewrite C.
      * injection H as <- <-. reflexivity.
Qed.
Lemma run_told : forall l g g' a,
  sound g -> Forall real_devices l -> calm virtual desc wanted builtin iso l g -> grun l g = Some (g', a) ->
  map tell a ++ map tell (waiting g') = map tell (waiting g) ++ came_in desc builtin iso l.
Proof.
  induction l as [|x l IH]; intros g g' a Sd Hr Hc H; cbn [g_run] in H.
  - injection H as <- <-. cbn [map app came_in]. now rewrite app_nil_r.
  - inversion Hr as [|? ? Hx Hl]; subst. cbn [calm] in Hc. destruct Hc as [Hc1 Hc2].
    destruct (step_sound x g Sd Hx) as (g1 & a1 & E & S1). rewrite E in H, Hc2.
    destruct (grun l g1) as [[g2 b]|] eqn:E2; [|discriminate H]. injection H as <- <-.
    rewrite map_app, <- app_assoc. rewrite (IH _ _ _ S1 Hl Hc2 E2). rewrite app_assoc.
    rewrite (step_told x g g1 a1 Sd E).
    + rewrite <- app_assoc. f_equal. destruct x; reflexivity.
    + destruct x; try assumption. now split.
Qed.
End Devices.
