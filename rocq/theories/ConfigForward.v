(** Proofs about forwarded modifiers. *)
From Coq Require Import List Arith NArith ZArith Bool Lia.
From Verif Require Import Base Key Text Match MatchProofs Stage ParseSeq Config ConfigShape ConfigSpec ConfigProofs ConfigLogical
  ConfigParse.
Import ListNotations.
Local Open Scope N_scope.

(** The first inputs [fi] of a context forward the keys [e], and no other mapping uses
    their outputs. *)
Definition with_target (outs : list sequence) (i : input) : mapping := (in_seq i, target_of outs i).
Record fronted (e : list key) (ins : list input) (outs : list sequence) : Prop := FR {
  fr_ex : exists fi rest, ins = fi ++ rest /\ map (with_target outs) fi = map forwarding e /\
            (forall i j, In i fi -> In j ins -> in_out j = in_out i -> in_seq j = in_seq i);
  fr_range : Forall (fun i => (in_out i < Z.of_nat (length outs))%Z) ins
}.

Lemma forwarding_target : forall outs i k, with_target outs i = forwarding k ->
  (0 <= in_out i)%Z /\ in_seq i = [ev0 k Down; ev0 k UpAsync] /\ nth (Z.to_nat (in_out i)) outs [] = [ev0 k Down].
Proof.
  intros outs i k H. unfold with_target, forwarding, target_of in H. injection H as A B.
  destruct (0 <=? in_out i)%Z eqn:E; [|discriminate]. injection B as B. apply Z.leb_le in E. auto.
Qed.

Lemma cons_eq : forall (A : Type) (a b : A) l m, a :: l = b :: m -> a = b /\ l = m.
Proof. intros A a b l m H. injection H as -> ->. auto. Qed.

(** * prepend_forward_modifier_mappings *)

Lemma target_app : forall outs o i, (in_out i < Z.of_nat (length outs))%Z ->
  target_of (outs ++ [o]) i = target_of outs i.
Proof.
  intros outs o i H. unfold target_of. destruct (0 <=? in_out i)%Z eqn:E; [|reflexivity].
  apply Z.leb_le in E. rewrite app_nth1; [reflexivity|lia].
Qed.
Lemma fronted_cons : forall k e ins outs, fronted e ins outs ->
  fronted (k :: e) (Inp [ev0 k Down; ev0 k UpAsync] (Z.of_nat (length outs)) :: ins) (outs ++ [[ev0 k Down]]).
Proof.
  intros k e ins outs [[fi [rest [E [Hm Hu]]]] Hr]. rewrite Forall_forall in Hr.
  assert (In_fi : forall i, In i fi -> In i ins) by (intros i Hi; rewrite E; apply in_or_app; now left).
  split.
  - exists (Inp [ev0 k Down; ev0 k UpAsync] (Z.of_nat (length outs)) :: fi), rest. split; [now rewrite E|]. split.
    + cbn [map]. apply f_equal2.
      * unfold with_target, forwarding, target_of. cbn [in_seq in_out].
        destruct (0 <=? Z.of_nat (length outs))%Z eqn:Z0; [|apply Z.leb_gt in Z0; lia].
        rewrite Nat2Z.id, app_nth2, Nat.sub_diag by lia. reflexivity.
      * rewrite <- Hm. apply map_ext_in. intros i Hi. unfold with_target. rewrite target_app; [reflexivity|auto].
    + intros i j [<-|Hi] [<-|Hj] Eo; cbn [in_out in_seq] in *; auto.
      * specialize (Hr j Hj). cbn beta in Hr. lia.
      * specialize (Hr i (In_fi i Hi)). cbn beta in Hr. lia.
  - rewrite app_length. cbn [length]. constructor; [cbn [in_out]; lia|]. apply Forall_forall. intros i Hi.
    specialize (Hr i Hi). cbn beta in *. lia.
Qed.
Lemma uniq_range : forall x, uniq x -> Forall (fun i => (in_out i < Z.of_nat (length (cc_outputs x)))%Z) (cc_inputs x).
Proof.
  intros x H. apply Forall_forall. intros i Hi. destruct (0 <=? in_out i)%Z eqn:E.
  - assert (D : In (in_out i) (direct_outs x)).
    { apply filter_In. split; [now apply in_map|exact E]. }
    rewrite H in D. apply in_map_iff in D. destruct D as [n [<- D]]. apply List.in_seq in D. lia.
  - apply Z.leb_gt in E. lia.
Qed.
Lemma prepend_fronted : forall fwd x, cc_stage x = true -> uniq x ->
  fronted fwd (cc_inputs (prepend_forward fwd x)) (cc_outputs (prepend_forward fwd x)).
Proof.
  intros fwd x Hs Hu. unfold prepend_forward. rewrite Hs.
  assert (G : forall l e x, fronted e (cc_inputs x) (cc_outputs x) ->
    fronted (rev l ++ e)
      (cc_inputs (fold_left (fun x k => cc_set_maps (Inp [ev0 k Down; ev0 k UpAsync] (Z.of_nat (length (cc_outputs x)))
                     :: cc_inputs x) (cc_outputs x ++ [[ev0 k Down]]) (cc_commands x) x) l x))
      (cc_outputs (fold_left (fun x k => cc_set_maps (Inp [ev0 k Down; ev0 k UpAsync] (Z.of_nat (length (cc_outputs x)))
                     :: cc_inputs x) (cc_outputs x ++ [[ev0 k Down]]) (cc_commands x) x) l x))).
  { induction l as [|k l IH]; intros e y H; [exact H|]. cbn [fold_left rev]. rewrite <- app_assoc. cbn [app].
    apply IH. cbn [cc_inputs cc_outputs cc_set_maps]. now apply fronted_cons. }
  specialize (G (rev fwd) [] x). rewrite rev_involutive, app_nil_r in G. apply G. split; [|now apply uniq_range].
  exists [], (cc_inputs x). repeat split. contradiction.
Qed.

(** * Replacing a logical key *)

Section Key.
Variable k : logical_key.
Notation both := (lk_both k).
Notation dup := (duplicate_inputs (lk_both k) (lk_left k) (lk_right k)).
Notation rn := (replace_not_key (lk_both k) (lk_left k) (lk_right k)).
Hypothesis ne_left : lk_left k <> both.
Hypothesis ne_right : lk_right k <> both.

Lemma dup_app : forall a b outs, dup (a ++ b) outs =
  let '(a', o1) := dup a outs in let '(b', o2) := dup b o1 in (a' ++ b', o2).
Proof.
  induction a as [|i a IH]; intros b outs.
  - cbn [app duplicate_inputs]. now destruct (dup b outs).
  - cbn [app duplicate_inputs]. destruct (contains_key (in_seq i) both).
    + set (d := if (0 <=? in_out i)%Z then _ else None). clearbody d.
      set (p := match d with Some o => _ | None => (in_out i, outs) end). destruct p as [idx o0].
      rewrite IH. destruct (dup a o0) as [a' o1]. destruct (dup b o1) as [b' o2]. reflexivity.
    + rewrite IH. destruct (dup a outs) as [a' o1]. destruct (dup b o1) as [b' o2]. reflexivity.
Qed.
(** Where the inputs come from. *)
Definition shares (outs : list sequence) (i : input) : Prop :=
  contains_key (in_seq i) both = true /\
  ((0 <= in_out i)%Z -> contains_key (nth (Z.to_nat (in_out i)) outs []) both = false).
Lemma dup_origin : forall l outs l' outs', dup l outs = (l', outs') ->
  Forall (fun i => (in_out i < Z.of_nat (length outs))%Z) l ->
  (length outs <= length outs')%nat /\
  (forall j, In j l' ->
     (exists i, In i l /\ in_out j = in_out i /\
        (in_seq j = replace_key both (lk_left k) (in_seq i) \/
         (in_seq j = replace_key both (lk_right k) (in_seq i) /\ shares outs i))) \/
     (Z.of_nat (length outs) <= in_out j < Z.of_nat (length outs'))%Z) /\
  (forall i j, In i l' -> In j l' -> in_out i = in_out j -> (Z.of_nat (length outs) <= in_out i)%Z -> i = j).
Proof.
  induction l as [|i l IH]; intros outs l' outs' H Hr.
  - injection H as <- <-. split; [lia|]. split; contradiction.
  - inversion_clear Hr as [|? ? Hi Hl]. cbn [duplicate_inputs] in H.
    destruct (contains_key (in_seq i) both) eqn:Ec.
    + set (d := if (0 <=? in_out i)%Z then _ else None) in H. destruct d as [o|] eqn:D.
      * destruct (dup l (outs ++ [replace_key both (lk_right k) o])) as [l2 o2] eqn:E. injection H as <- <-.
        assert (L : length (outs ++ [replace_key both (lk_right k) o]) = S (length outs)) by (rewrite app_length; cbn; lia).
        apply IH in E; [|rewrite L; eapply Forall_impl; [|exact Hl]; cbn beta; intros; lia].
        rewrite L in E. destruct E as [E1 [E2 E3]].
        assert (Far : forall j, In j l2 -> in_out j <> Z.of_nat (length outs)).
        { intros j Hj. destruct (E2 j Hj) as [[x [Hx [Ex _]]]|R]; [|lia].
          rewrite Forall_forall in Hl. specialize (Hl x Hx). cbn beta in Hl. lia. }
        split; [lia|]. split.
        -- intros j [<-|[<-|Hj]].
           ++ left. exists i. cbn. auto.
           ++ right. cbn [in_out]. lia.
           ++ destruct (E2 j Hj) as [[x [Hx [Ex Q]]]|R]; [|right; lia]. left. exists x. split; [now right|].
              split; [exact Ex|]. destruct Q as [Q|[Q [S1 S2]]]; [now left|]. right. split; [exact Q|].
              split; [exact S1|]. intros Z0. specialize (S2 Z0). rewrite Forall_forall in Hl. specialize (Hl x Hx). cbn beta in Hl.
              rewrite app_nth1 in S2 by lia. exact S2.
        -- intros a b [<-|[<-|Ha]] [<-|[<-|Hb]] Eo Ho; cbn [in_out] in *; auto; try lia.
           ++ exfalso. exact (Far b Hb (eq_sym Eo)).
           ++ exfalso. exact (Far a Ha Eo).
           ++ apply E3; auto. specialize (Far a Ha). lia.
      * destruct (dup l outs) as [l2 o2] eqn:E. injection H as <- <-. apply IH in E; [|exact Hl].
        destruct E as [E1 [E2 E3]]. split; [exact E1|]. split.
        -- intros j [<-|[<-|Hj]].
           ++ left. exists i. cbn. auto.
           ++ left. exists i. cbn [in_out in_seq]. split; [now left|]. split; [reflexivity|]. right. split; [reflexivity|].
              split; [exact Ec|]. intros Z0. unfold d in D. apply Z.leb_le in Z0. rewrite Z0 in D.
              destruct (nth_error outs (Z.to_nat (in_out i))) as [o|] eqn:En.
              ** rewrite (nth_error_nth _ _ _ En). now destruct (contains_key o both).
              ** apply nth_error_None in En. now rewrite nth_overflow.
           ++ destruct (E2 j Hj) as [[x [Hx Q]]|R]; [|now right]. left. exists x. split; [now right|exact Q].
        -- intros a b [<-|[<-|Ha]] [<-|[<-|Hb]] Eo Ho; cbn [in_out] in *; auto; lia.
    + destruct (dup l outs) as [l2 o2] eqn:E. injection H as <- <-. apply IH in E; [|exact Hl].
      destruct E as [E1 [E2 E3]]. split; [exact E1|]. split.
      * intros j [<-|Hj].
        -- left. exists i. split; [now left|]. split; [reflexivity|]. left. symmetry. now apply as_key_id.
        -- destruct (E2 j Hj) as [[x [Hx Q]]|R]; [|now right]. left. exists x. split; [now right|exact Q].
      * intros a b [<-|Ha] [<-|Hb] Eo Ho; auto; lia.
Qed.

Lemma forwarding_doubled : forall outs i c, with_target outs i = forwarding c ->
  doubled k outs i = map forwarding (either_key k c).
Proof.
  intros outs i c H. destruct (forwarding_target _ _ _ H) as [Z0 [Es Eo]]. unfold doubled.
  apply Z.leb_le in Z0. unfold tgt, target_of. rewrite Z0, Es, Eo.
  unfold either_key, contains_key, replace_key. cbn [existsb map]. unfold ev0. cbn [ek es ev].
  destruct (c =? both) eqn:E; cbn [orb map]; reflexivity.
Qed.
Lemma forwarding_no_share : forall outs i c, with_target outs i = forwarding c -> ~ shares outs i.
Proof.
  intros outs i c H [A B]. destruct (forwarding_target _ _ _ H) as [Z0 [Es Eo]]. specialize (B Z0).
  rewrite Es in A. rewrite Eo in B. unfold contains_key in A, B. cbn in A, B. rewrite orb_false_r in B.
  now rewrite B in A.
Qed.
Lemma rn_forwarding : forall outs i c, with_target outs i = forwarding c ->
  with_target (map rn outs) (Inp (rn (in_seq i)) (in_out i)) = forwarding c.
Proof.
  intros outs i c H. destruct (forwarding_target _ _ _ H) as [Z0 [Es Eo]].
  unfold with_target, target_of. cbn [in_seq in_out]. apply Z.leb_le in Z0. rewrite Z0, Es.
  change (@nil event) with (rn []) at 2. rewrite map_nth, Eo. reflexivity.
Qed.

Lemma replace_fronted : forall e x, fronted e (cc_inputs x) (cc_outputs x) ->
  fronted (flat_map (either_key k) e) (cc_inputs (replace_logical_in k x)) (cc_outputs (replace_logical_in k x)).
Proof.
  intros e x [[fi [rest [Ei [Hm Hu]]]] Hr]. unfold replace_logical_in.
  set (f := fun i => Inp (rn (in_seq i)) (in_out i)). set (outs := map rn (cc_outputs x)).
  assert (Lo : length outs = length (cc_outputs x)) by (unfold outs; now rewrite map_length).
  assert (Hr' : Forall (fun i => (in_out i < Z.of_nat (length outs))%Z) (map f (cc_inputs x))).
  { rewrite Forall_map, Lo. exact Hr. }
  assert (Hm' : map (with_target outs) (map f fi) = map forwarding e).
  { clear - Hm ne_left ne_right. revert e Hm. induction fi as [|i l IH]; intros [|c e] H; try discriminate; [reflexivity|].
    cbn [map] in *. apply cons_eq in H. destruct H as [A B]. apply f_equal2; [exact (rn_forwarding _ _ _ A)|now apply IH]. }
  destruct (dup (map f (cc_inputs x)) outs) as [ins o2] eqn:E.
  destruct (dup_origin _ _ _ _ E Hr') as [L [O U]].
  rewrite Ei, map_app, dup_app in E. destruct (dup (map f fi) outs) as [a o1] eqn:Ea.
  destruct (dup (map f rest) o1) as [b o2'] eqn:Eb. injection E as <- ->.
  rewrite Ei, map_app in Hr'. apply Forall_app in Hr'. destruct Hr' as [Hr1 Hr2].
  assert (Each : forall i, In i (map f fi) -> exists c, with_target outs i = forwarding c).
  { intros i Hi. assert (Q : In (with_target outs i) (map forwarding e)) by (rewrite <- Hm'; now apply in_map).
    apply in_map_iff in Q. destruct Q as [c [Q _]]. exists c. now symmetry. }
  assert (Wf : Forall (iwf (length outs)) (map f fi)).
  { apply Forall_forall. intros i Hi. destruct (Each i Hi) as [c Q]. apply forwarding_target in Q.
    rewrite Forall_forall in Hr1. specialize (Hr1 i Hi). cbn beta in Hr1.
    split; [destruct Q as [_ [-> _]]; apply forward_fit|lia]. }
  destruct (duplicate_inputs_spec k ne_left ne_right _ _ _ _ Ea Wf) as [[more1 Eo1] Ma].
  destruct (dup_origin _ _ _ _ Ea Hr1) as [La [Oa _]].
  assert (Lb : (length o1 <= length o2)%nat /\ exists more2, o2 = o1 ++ more2).
  { clear - Eb ne_left ne_right. revert o1 b o2 Eb. generalize (map f rest). intros l.
    induction l as [|i l IH]; intros o1 b o2 H; cbn [duplicate_inputs] in H.
    - injection H as <- <-. split; [lia|]. exists []. now rewrite app_nil_r.
    - destruct (contains_key (in_seq i) both).
      + set (d := if (0 <=? in_out i)%Z then _ else None) in H. clearbody d. destruct d as [o|].
        * destruct (dup l (o1 ++ [replace_key both (lk_right k) o])) as [l2 o3] eqn:E. injection H as <- <-.
          apply IH in E. destruct E as [A [m ->]]. rewrite !app_length in *. cbn [length] in *. split; [lia|].
          exists ([replace_key both (lk_right k) o] ++ m). now rewrite app_assoc.
        * destruct (dup l o1) as [l2 o3] eqn:E. injection H as <- <-. now apply IH in E.
      + destruct (dup l o1) as [l2 o3] eqn:E. injection H as <- <-. now apply IH in E. }
  destruct Lb as [Lb [more2 Eo2]].
  assert (Ra : forall j, In j a -> (in_out j < Z.of_nat (length o1))%Z).
  { intros j Hj. destruct (Oa j Hj) as [[i [Hi [-> _]]]|R]; [|lia].
    rewrite Forall_forall in Hr1. specialize (Hr1 i Hi). cbn beta in Hr1. lia. }
  assert (Same : forall i j, In i (map f fi) -> In j (map f (cc_inputs x)) -> in_out j = in_out i -> in_seq j = in_seq i).
  { intros i j Hi Hj Eo. apply in_map_iff in Hi, Hj. destruct Hi as [i0 [<- Hi]], Hj as [j0 [<- Hj]].
    unfold f in *. cbn [in_out in_seq] in *. now rewrite (Hu i0 j0 Hi Hj Eo). }
  cbn [cc_inputs cc_outputs cc_set_mods cc_set_maps]. split.
  - exists a, b. split; [reflexivity|]. split.
    + transitivity (map (fun i => (in_seq i, tgt k (lk_left k) o1 i)) a).
      * apply map_ext_in. intros j Hj. unfold with_target. rewrite target_map. apply f_equal.
        specialize (Ra j Hj). unfold tgt. rewrite Eo2, (target_grows k ne_left ne_right (length o1)); [reflexivity|reflexivity|lia].
      * rewrite Ma. clear - Hm'. revert e Hm'. induction (map f fi) as [|i l IH]; intros [|c e] H; try discriminate; [reflexivity|].
        cbn [map flat_map] in *. apply cons_eq in H. destruct H as [A B]. rewrite map_app. apply f_equal2; [exact (forwarding_doubled _ _ _ A)|now apply IH].
    + intros i j Hi Hj Eo.
      destruct (Oa i Hi) as [[i0 [Hi0 [Ei0 Qi]]]|R].
      2:{ apply f_equal. symmetry. apply U; [apply in_or_app; now left|exact Hj|now symmetry|lia]. }
      assert (Bi : (in_out i < Z.of_nat (length outs))%Z).
      { rewrite Forall_forall in Hr1. specialize (Hr1 i0 Hi0). cbn beta in Hr1. lia. }
      destruct (O j Hj) as [[j0 [Hj0 [Ej0 Qj]]]|R]; [|lia].
      assert (Eq0 : in_seq j0 = in_seq i0) by (apply Same; congruence).
      destruct (Each i0 Hi0) as [c Fi].
      assert (Fj : with_target outs j0 = forwarding c).
      { rewrite <- Fi. unfold with_target, target_of. rewrite Eq0. now replace (in_out j0) with (in_out i0) by congruence. }
      destruct Qi as [Qi|[_ Qi]]; [|destruct (forwarding_no_share _ _ _ Fi Qi)].
      destruct Qj as [Qj|[_ Qj]]; [|destruct (forwarding_no_share _ _ _ Fj Qj)]. congruence.
  - rewrite map_length. apply Forall_forall. intros j Hj. destruct (O j Hj) as [[i [Hi [-> _]]]|R]; [|lia].
    rewrite Ei, map_app in Hi. apply in_app_or in Hi. rewrite Forall_forall in Hr1, Hr2.
    destruct Hi as [Hi|Hi]; [specialize (Hr1 i Hi)|specialize (Hr2 i Hi)]; cbn beta in *; lia.
Qed.
End Key.

(** * The stages of the whole list *)

Definition front (e : list key) (x : cctx) : Prop :=
  cc_stage x = true ->
  (cc_fall x = false /\ cc_mods x = []) /\ fronted e (cc_inputs x) (cc_outputs x).
Definition starts (l : list cctx) : Prop :=
  match l with x :: _ => cc_stage x = true | [] => False end.

Lemma prepend_front : forall fwd l, Forall plain_stage l -> Forall uniq l ->
  Forall (front fwd) (map (prepend_forward fwd) l).
Proof.
  intros fwd l Hp Hu. rewrite Forall_map. rewrite Forall_forall in *. intros x Hx Hs.
  destruct (prepend_forward_marks fwd x) as [Ef [Es [Em _]]]. rewrite Es in Hs.
  destruct (Hp x Hx Hs) as [A [_ B]]. rewrite Ef, Em. split; [now split|]. apply prepend_fronted; auto.
Qed.
Lemma optimize_front : forall e l, Forall (front e) l -> Forall (front e) (optimize_contexts l).
Proof.
  intros e l. apply optimize_inv.
  - intros [y|] x _ Hx Hs; [|now apply Hx]. cbn [take_over] in *. destruct (cc_fall x) eqn:Ef; [|now apply Hx].
    cbn [cc_stage cc_set_fall cc_set_maps] in Hs. destruct (Hx Hs) as [[C _] _]. congruence.
  - intros Hs. discriminate Hs.
Qed.
Lemma optimize_first : forall x l, cc_fall x = false -> cc_sys x = true -> cc_inputs x <> [] ->
  exists l', optimize_contexts (x :: l) = x :: l'.
Proof.
  intros x l Hf Hs Hi. unfold optimize_contexts. cbn [rev].
  assert (G : forall rl moved bc acc, exists l', optimize_loop (rl ++ [x]) moved bc acc = x :: l').
  { induction rl as [|y rl IH]; intros moved bc acc.
    - cbn [app optimize_loop]. assert (E : take_over moved x = x) by (destruct moved; cbn [take_over]; rewrite ?Hf; reflexivity).
      rewrite E, Hf, Hs. cbn zeta iota. destruct (cc_inputs x); [easy|]. cbn [negb null andb orb optimize_loop]. now exists acc.
    - cbn [app optimize_loop]. cbn zeta. set (z := take_over moved y). clearbody z.
      destruct (cc_fall z); destruct (_ || _); apply IH. }
  destruct (G (rev l) None false []) as [l' E]. rewrite E. now exists l'.
Qed.
Lemma replace_front : forall k e l, apart k -> Forall (front e) l ->
  Forall (front (flat_map (either_key k) e)) (replace_logical_key l k).
Proof.
  intros k e l [A B] H. unfold replace_logical_key. apply Forall_flat_map. rewrite Forall_map.
  eapply Forall_impl; [|exact H]. intros x Hx. destruct (replace_logical_in_marks k x) as [Ef [Es _]].
  assert (Em : cc_mods (replace_logical_in k x) = replace_not_key (lk_both k) (lk_left k) (lk_right k) (cc_mods x)).
  { unfold replace_logical_in. destruct (duplicate_inputs _ _ _ _ _). reflexivity. }
  unfold duplicate_context. destruct (cc_stage x) eqn:Est.
  - destruct (Hx Est) as [[C D] F]. rewrite Em, D. cbn [replace_not_key flat_map contains_key existsb].
    constructor; [|constructor]. intros _. split; [split; [congruence|now rewrite Em, D]|]. now apply replace_fronted.
  - destruct (contains_key _ _).
    + constructor; [|constructor; [|constructor]]; intros Hs; cbn in Hs; congruence.
    + constructor; [|constructor]. intros Hs. congruence.
Qed.
Lemma replace_starts : forall k l, Forall (fun x => cc_stage x = true -> cc_mods x = []) l -> starts l ->
  starts (replace_logical_key l k).
Proof.
  intros k [|x l] H Hs; [exact Hs|]. cbn [starts] in Hs. inversion_clear H as [|? ? Hx _].
  unfold replace_logical_key. cbn [map flat_map]. destruct (replace_logical_in_marks k x) as [_ [Es _]].
  assert (Em : cc_mods (replace_logical_in k x) = replace_not_key (lk_both k) (lk_left k) (lk_right k) (cc_mods x)).
  { unfold replace_logical_in. destruct (duplicate_inputs _ _ _ _ _). reflexivity. }
  unfold duplicate_context at 1. rewrite Em, (Hx Hs). cbn. congruence.
Qed.
Lemma replace_all_front : forall ks e l, Forall apart ks -> Forall (front e) l -> starts l ->
  Forall (front (physical ks e)) (fold_left replace_logical_key ks l) /\
  starts (fold_left replace_logical_key ks l).
Proof.
  induction ks as [|k ks IH]; intros e l Ha H Hs; [now split|]. inversion_clear Ha as [|? ? A B].
  cbn [fold_left]. unfold physical. cbn [fold_left]. apply IH; [exact B|now apply replace_front|].
  apply replace_starts; [|exact Hs]. eapply Forall_impl; [|exact H]. intros x Hx E. now destruct (Hx E) as [[_ M] _].
Qed.

(** * suppress_forwarded_modifiers_in_outputs *)

Lemma contains_In : forall s e, contains_event s e = true <-> In e s.
Proof.
  intros s e. unfold contains_event. rewrite existsb_exists. split.
  - intros [x [Hx E]]. apply event_eqb_eq in E. now subst.
  - intros H. exists e. split; [exact H|]. now apply event_eqb_eq.
Qed.
Lemma contains_mentions : forall k o,
  contains_event o (ev0 k Down) || contains_event o (ev0 k Not) = true <-> mentions k o.
Proof. intros k o. rewrite orb_true_iff, !contains_In. reflexivity. Qed.
Lemma suppressed_iff : forall (P Q : key -> Prop) a b, (forall k, P k <-> Q k) -> suppressed P a b -> suppressed Q a b.
Proof.
  intros P Q a b H [ks [E [Nd Hk]]]. exists ks. split; [exact E|]. split; [exact Nd|].
  intros k. rewrite Hk, (H k). reflexivity.
Qed.
Lemma suppressed_step : forall (P : key -> Prop) k a b, suppressed P a b -> suppressed (fun c => P c \/ c = k) a (prepend_not k b).
Proof.
  intros P k a b [ks [E [Nd Hk]]]. unfold prepend_not.
  destruct (contains_event b (ev0 k Down) || contains_event b (ev0 k Not)) eqn:C.
  - apply contains_mentions in C. exists ks. split; [exact E|]. split; [exact Nd|]. intros c. rewrite Hk.
    split; [tauto|]. intros [[A| ->] B]; [tauto|]. apply Hk. rewrite E in C.
    destruct C as [C|C]; apply in_app_or in C; destruct C as [C|C].
    + apply in_map_iff in C. destruct C as [c [C _]]. discriminate C.
    + destruct B. now left.
    + apply in_map_iff in C. destruct C as [c [C D]]. injection C as ->. exact D.
    + destruct B. now right.
  - assert (Nm : ~ mentions k b) by (intros M; apply contains_mentions in M; congruence).
    assert (Na : ~ mentions k a).
    { intros [M|M]; apply Nm; rewrite E; [left|right]; apply in_or_app; now right. }
    exists (k :: ks). split; [now rewrite E|]. split.
    + constructor; [|exact Nd]. intros Hi. apply Nm. right. rewrite E. apply in_or_app. left.
      now apply (in_map (fun c => ev0 c Not)).
    + intros c. cbn [In]. rewrite Hk. split; [intros [<-|[A B]]; tauto|]. intros [[A| ->] B]; tauto.
Qed.

Definition triple : Type := (nat * (key * input))%type.
Definition sup_step (l : list cctx) (t : triple) : list cctx := suppress_input (fst t) (fst (snd t)) l (snd (snd t)).
Definition ins_at (l : list cctx) (n : nat) : list input :=
  match nth_error l n with Some x => cc_inputs x | None => [] end.
Definition triples (fwd : list key) (l : list cctx) : list triple :=
  flat_map (fun n => map (pair n) (flat_map (fun k => map (pair k) (ins_at l n)) fwd)) (seq 0 (length l)).

Lemma nested_fold : forall (A B C : Type) (g : B -> A -> C -> A) (h : A -> B -> list C) xs a,
  (forall a x y z, h (g x a y) z = h a z) ->
  fold_left (fun a x => fold_left (g x) (h a x) a) xs a =
  fold_left (fun a p => g (fst p) a (snd p)) (flat_map (fun x => map (pair x) (h a x)) xs) a.
Proof.
  intros A B C g h xs a H. revert a. induction xs as [|x xs IH]; intros a; [reflexivity|].
  cbn [fold_left flat_map]. rewrite fold_left_app.
  assert (E : fold_left (fun a p => g (fst p) a (snd p)) (map (pair x) (h a x)) a = fold_left (g x) (h a x) a).
  { generalize (h a x). intros l. revert a. induction l as [|y l IHl]; intros a; [reflexivity|]. cbn [map fold_left]. apply IHl. }
  rewrite E, IH. clear E. f_equal. apply flat_map_ext. intros z. f_equal.
  generalize (h a x). intros l. revert a. induction l as [|y l IHl]; intros a; [reflexivity|]. cbn [fold_left].
  now rewrite IHl, H.
Qed.

Lemma nth_update : forall (A : Type) (f : A -> A) l n m,
  nth_error (update_at n f l) m = if (n =? m)%nat then option_map f (nth_error l m) else nth_error l m.
Proof.
  intros A f. induction l as [|x l IH]; intros [|n] [|m]; cbn; try reflexivity; [now destruct (n =? m)%nat|apply IH].
Qed.
Lemma sup_ins : forall n k l i m, ins_at (suppress_input n k l i) m = ins_at l m.
Proof.
  intros n k l i m. unfold suppress_input, ins_at. destruct (contains_event _ _); [|reflexivity].
  destruct (0 <=? in_out i)%Z.
  - rewrite nth_update. destruct (n =? m)%nat; [|reflexivity]. now destruct (nth_error l m).
  - rewrite nth_error_map. now destruct (nth_error l m).
Qed.
Lemma suppress_flat : forall fwd l, suppress_forwarded fwd l = fold_left sup_step (triples fwd l) l.
Proof.
  intros fwd l. unfold suppress_forwarded, triples.
  rewrite <- (nested_fold _ _ _ (fun n l p => suppress_input n (fst p) l (snd p))
                (fun l n => flat_map (fun k => map (pair k) (ins_at l n)) fwd)).
  2:{ intros a n p m. apply flat_map_ext. intros k. now rewrite sup_ins. }
  generalize (seq 0 (length l)). intros ns. revert l. induction ns as [|n ns IH]; intros l; [reflexivity|].
  cbn [fold_left]. rewrite <- IH. f_equal.
  rewrite <- (nested_fold _ _ _ (fun k l i => suppress_input n k l i) (fun l _ => ins_at l n)); [reflexivity|].
  intros a k i _. apply sup_ins.
Qed.

(** What has been suppressed by a part of the steps. *)
Definition for_out (d : list triple) (m : nat) (o : Z) (k : key) : Prop :=
  exists i, In (m, (k, i)) d /\ in_out i = o /\ In (ev0 k Down) (in_seq i).
Definition for_cmd (d : list triple) (n : Z) (k : key) : Prop := exists m, for_out d m n k.
Definition sup_ctx (d : list triple) (m : nat) (x y : cctx) : Prop :=
  frame_of y = frame_of x /\
  (forall o a, nth_error (cc_outputs x) o = Some a -> exists b, nth_error (cc_outputs y) o = Some b /\
     suppressed (for_out d m (Z.of_nat o)) a b) /\
  Forall2 (fun c c' => cm_idx c' = cm_idx c /\ suppressed (fun k => (cm_idx c < 0)%Z /\ for_cmd d (cm_idx c) k) (cm_out c) (cm_out c'))
    (cc_commands x) (cc_commands y).
Definition sup_list (d : list triple) (l l' : list cctx) : Prop :=
  length l' = length l /\
  forall m x, nth_error l m = Some x -> exists y, nth_error l' m = Some y /\ sup_ctx d m x y.

Lemma suppressed_refl : forall (P : key -> Prop) a, (forall k, ~ P k) -> suppressed P a a.
Proof.
  intros P a H. exists []. split; [reflexivity|]. split; [constructor|]. intros k. split; [contradiction|].
  intros [A _]. exact (H k A).
Qed.
Lemma sup_nil : forall l, sup_list [] l l.
Proof.
  intros l. split; [reflexivity|]. intros m x Hx. exists x. split; [exact Hx|]. split; [reflexivity|]. split.
  - intros o a Ha. exists a. split; [exact Ha|]. apply suppressed_refl. intros k [i [[] _]].
  - induction (cc_commands x) as [|c cs IH]; constructor; [|exact IH]. split; [reflexivity|].
    apply suppressed_refl. intros k [_ [n [i [[] _]]]].
Qed.
Lemma for_out_snoc : forall d n k i m o c, for_out (d ++ [(n, (k, i))]) m o c <->
  for_out d m o c \/ (m = n /\ c = k /\ in_out i = o /\ In (ev0 k Down) (in_seq i)).
Proof.
  intros d n k i m o c. unfold for_out. split.
  - intros [j [H [A B]]]. apply in_app_or in H. destruct H as [H|[H|[]]]; [left; now exists j|].
    injection H as -> -> ->. right. auto.
  - intros [[j [H Q]]|[-> [-> [A B]]]]; [exists j; split; [apply in_or_app; now left|exact Q]|].
    exists i. split; [apply in_or_app; right; now left|auto].
Qed.
Lemma Forall2_impl2 : forall (A B : Type) (P Q : A -> B -> Prop) l m, (forall a b, P a b -> Q a b) -> Forall2 P l m -> Forall2 Q l m.
Proof. intros A B P Q l m H F. induction F; constructor; auto. Qed.
Lemma sup_step_list : forall d l l' n k i, sup_list d l l' -> sup_list (d ++ [(n, (k, i))]) l (sup_step l' (n, (k, i))).
Proof.
  intros d l l' n k i [L H]. unfold sup_step. cbn [fst snd]. unfold suppress_input.
  destruct (contains_event (in_seq i) (ev0 k Down)) eqn:C.
  2:{ assert (Nc : ~ In (ev0 k Down) (in_seq i)) by (intros Q; apply contains_In in Q; congruence).
      assert (Eq : forall m o c, for_out d m o c <-> for_out (d ++ [(n, (k, i))]) m o c).
      { intros m o c. rewrite for_out_snoc. tauto. }
      split; [exact L|]. intros m x Hx. destruct (H m x Hx) as [y [Hy [F [O Cs]]]]. exists y. split; [exact Hy|].
      split; [exact F|]. split.
      - intros o a Ha. destruct (O o a Ha) as [b [Hb S1]]. exists b. split; [exact Hb|].
        eapply suppressed_iff; [|exact S1]. intros c. apply Eq.
      - eapply Forall2_impl2; [|exact Cs]. cbn beta. intros c c' [A S1]. split; [exact A|].
        eapply suppressed_iff; [|exact S1]. intros q. unfold for_cmd. split; intros [Z0 [z Q]]; (split; [exact Z0|]; exists z; now apply Eq). }
  apply contains_In in C. destruct (0 <=? in_out i)%Z eqn:Z0.
  - apply Z.leb_le in Z0. split; [rewrite update_length; exact L|].
    intros m x Hx. destruct (H m x Hx) as [y [Hy [F [O Cs]]]]. rewrite nth_update. destruct (n =? m)%nat eqn:Em.
    + apply Nat.eqb_eq in Em. subst m. rewrite Hy. cbn [option_map]. eexists. split; [reflexivity|]. split.
      { rewrite <- F. unfold frame_of, attrs_of. cbn [cc_class cc_title cc_path cc_dev cc_devid cc_mods cc_inv cc_sys cc_fall cc_stage
          cc_inputs cc_outputs cc_commands cc_set_maps]. now rewrite update_length. }
      cbn [cc_outputs cc_commands cc_set_maps]. split.
      * intros o a Ha. destruct (O o a Ha) as [b [Hb S1]]. rewrite nth_update, Hb.
        destruct (Z.to_nat (in_out i) =? o)%nat eqn:Eo.
        -- apply Nat.eqb_eq in Eo. eexists. split; [reflexivity|]. cbn [option_map].
           eapply suppressed_iff; [|apply suppressed_step, S1]. intros c. rewrite for_out_snoc.
           assert (in_out i = Z.of_nat o) by lia. intuition.
        -- apply Nat.eqb_neq in Eo. exists b. split; [reflexivity|]. eapply suppressed_iff; [|exact S1]. intros c.
           rewrite for_out_snoc. split; [now left|]. intros [Q|[_ [_ [Q _]]]]; [exact Q|lia].
      * eapply Forall2_impl2; [|exact Cs]. cbn beta. intros c c' [A S1]. split; [exact A|].
        eapply suppressed_iff; [|exact S1]. intros q. unfold for_cmd.
        split; intros [Zc [z Q]]; (split; [exact Zc|]; exists z).
        -- apply for_out_snoc. now left.
        -- apply for_out_snoc in Q. destruct Q as [Q|[_ [_ [Q _]]]]; [exact Q|lia].
    + apply Nat.eqb_neq in Em. exists y. split; [exact Hy|]. split; [exact F|]. split.
      * intros o a Ha. destruct (O o a Ha) as [b [Hb S1]]. exists b. split; [exact Hb|].
        eapply suppressed_iff; [|exact S1]. intros c. rewrite for_out_snoc. intuition congruence.
      * eapply Forall2_impl2; [|exact Cs]. cbn beta. intros c c' [A S1]. split; [exact A|].
        eapply suppressed_iff; [|exact S1]. intros q. unfold for_cmd.
        split; intros [Zc [z Q]]; (split; [exact Zc|]; exists z).
        -- apply for_out_snoc. now left.
        -- apply for_out_snoc in Q. destruct Q as [Q|[_ [_ [Q _]]]]; [exact Q|lia].
  - apply Z.leb_gt in Z0. split; [rewrite map_length; exact L|].
    intros m x Hx. destruct (H m x Hx) as [y [Hy [F [O Cs]]]]. rewrite nth_error_map, Hy. cbn [option_map].
    eexists. split; [reflexivity|]. split.
    { rewrite <- F. unfold frame_of, attrs_of. cbn [cc_class cc_title cc_path cc_dev cc_devid cc_mods cc_inv cc_sys cc_fall cc_stage
          cc_inputs cc_outputs cc_commands cc_set_maps]. rewrite map_map.
      assert (Ec : map (fun x0 : command => cm_idx (if (cm_idx x0 =? in_out i)%Z then Cmd (prepend_not k (cm_out x0)) (cm_idx x0) else x0))
                     (cc_commands y) = map cm_idx (cc_commands y)).
      { apply map_ext. intros c. now destruct (cm_idx c =? in_out i)%Z. }
      now rewrite Ec. }
    cbn [cc_outputs cc_commands cc_set_maps]. split.
    + intros o a Ha. destruct (O o a Ha) as [b [Hb S1]]. exists b. split; [exact Hb|].
      eapply suppressed_iff; [|exact S1]. intros c. rewrite for_out_snoc. split; [now left|].
      intros [Q|[_ [_ [Q _]]]]; [exact Q|lia].
    + clear - Cs C Z0. induction Cs as [|c c' cs cs' [A S1] Cs IH]; cbn [map]; constructor; [|exact IH].
      rewrite A. destruct (cm_idx c =? in_out i)%Z eqn:Ei; cbn [cm_idx cm_out]; (split; [first [exact A | reflexivity]|]).
      * apply Z.eqb_eq in Ei. eapply suppressed_iff; [|apply suppressed_step, S1]. intros q. unfold for_cmd. split.
        -- intros [[Zc [z Q]]| ->]; [split; [exact Zc|]; exists z; apply for_out_snoc; now left|].
           split; [lia|]. exists n. apply for_out_snoc. right. auto.
        -- intros [Zc [z Q]]. apply for_out_snoc in Q. destruct Q as [Q|[_ [Q _]]]; [left; split; [exact Zc|now exists z]|now right].
      * apply Z.eqb_neq in Ei. eapply suppressed_iff; [|exact S1]. intros q. unfold for_cmd.
        split; intros [Zc [z Q]]; (split; [exact Zc|]; exists z).
        -- apply for_out_snoc. now left.
        -- apply for_out_snoc in Q. destruct Q as [Q|[_ [_ [Q _]]]]; [exact Q|congruence].
Qed.
Lemma sup_all : forall t l, sup_list t l (fold_left sup_step t l).
Proof.
  intros t l. assert (G : forall t d l', sup_list d l l' -> sup_list (d ++ t) l (fold_left sup_step t l')).
  { clear t. induction t as [|[n [k i]] t IH]; intros d l' H; [now rewrite app_nil_r|]. cbn [fold_left].
    assert (E : sup_list ((d ++ [(n, (k, i))]) ++ t) l (fold_left sup_step t (sup_step l' (n, (k, i))))).
    { apply IH. now apply sup_step_list. }
    rewrite <- app_assoc in E. exact E. }
  apply (G t [] l). apply sup_nil.
Qed.
Lemma in_triples : forall fwd l m k i, In (m, (k, i)) (triples fwd l) <->
  exists x, nth_error l m = Some x /\ In k fwd /\ In i (cc_inputs x).
Proof.
  intros fwd l m k i. unfold triples. rewrite in_flat_map. split.
  - intros [n [Hn H]]. apply in_map_iff in H. destruct H as [p [E H]]. injection E as -> ->.
    apply in_flat_map in H. destruct H as [k0 [Hk H]]. apply in_map_iff in H. destruct H as [i0 [E H]].
    injection E as -> ->. unfold ins_at in H. destruct (nth_error l m) as [x|]; [|contradiction]. now exists x.
  - intros [x [Hx [Hk Hi]]]. exists m. split.
    + apply List.in_seq. assert (m < length l)%nat by (apply nth_error_Some; congruence). lia.
    + apply in_map. apply in_flat_map. exists k. split; [exact Hk|]. apply in_map. unfold ins_at. now rewrite Hx.
Qed.

(** The contexts before and after. *)
Theorem suppress_spec : forall fwd l,
  length (suppress_forwarded fwd l) = length l /\
  forall m x, nth_error l m = Some x -> exists y, nth_error (suppress_forwarded fwd l) m = Some y /\
    frame_of y = frame_of x /\
    (forall o a, nth_error (cc_outputs x) o = Some a -> exists b, nth_error (cc_outputs y) o = Some b /\
       suppressed (fun k => In k fwd /\ presses x (Z.of_nat o) k) a b) /\
    Forall2 (fun c c' => cm_idx c' = cm_idx c /\
       suppressed (fun k => (cm_idx c < 0)%Z /\ In k fwd /\ exists z, In z l /\ presses z (cm_idx c) k) (cm_out c) (cm_out c'))
      (cc_commands x) (cc_commands y).
Proof.
  intros fwd l. rewrite suppress_flat. destruct (sup_all (triples fwd l) l) as [L H]. split; [exact L|].
  intros m x Hx. destruct (H m x Hx) as [y [Hy [F [O Cs]]]]. exists y. split; [exact Hy|]. split; [exact F|]. split.
  - intros o a Ha. destruct (O o a Ha) as [b [Hb S1]]. exists b. split; [exact Hb|].
    eapply suppressed_iff; [|exact S1]. intros k. unfold for_out, presses. split.
    + intros [i [Hi [A B]]]. apply in_triples in Hi. destruct Hi as [z [Hz [Hk Hi]]].
      assert (z = x) by congruence. subst z. split; [exact Hk|]. now exists i.
    + intros [Hk [i [Hi [A B]]]]. exists i. split; [|now split]. apply in_triples. now exists x.
  - eapply Forall2_impl2; [|exact Cs]. cbn beta. intros c c' [A S1]. split; [exact A|].
    eapply suppressed_iff; [|exact S1]. intros k. unfold for_cmd, for_out, presses. split.
    + intros [Z0 [n [i [Hi Q]]]]. apply in_triples in Hi. destruct Hi as [z [Hz [Hk Hi]]]. split; [exact Z0|].
      split; [exact Hk|]. exists z. apply nth_error_In in Hz. split; [exact Hz|]. now exists i.
    + intros [Z0 [Hk [z [Hz [i [Hi Q]]]]]]. split; [exact Z0|]. apply In_nth_error in Hz. destruct Hz as [n Hn].
      exists n, i. split; [|exact Q]. apply in_triples. now exists z.
Qed.

Lemma suppress_fronted : forall fwd e x y, cc_inputs y = cc_inputs x -> length (cc_outputs y) = length (cc_outputs x) ->
  (forall o a, nth_error (cc_outputs x) o = Some a -> exists b, nth_error (cc_outputs y) o = Some b /\
     suppressed (fun k => In k fwd /\ presses x (Z.of_nat o) k) a b) ->
  fronted e (cc_inputs x) (cc_outputs x) -> fronted e (cc_inputs y) (cc_outputs y).
Proof.
  intros fwd e x y Ei Lo O [[fi [rest [E [Hm Hu]]]] Hr]. rewrite Ei. split; [|now rewrite Lo].
  exists fi, rest. split; [exact E|]. split; [|exact Hu]. rewrite <- Hm. apply map_ext_in. intros i Hi.
  assert (Q : exists c, with_target (cc_outputs x) i = forwarding c).
  { assert (Q : In (with_target (cc_outputs x) i) (map forwarding e)) by (rewrite <- Hm; now apply in_map).
    apply in_map_iff in Q. destruct Q as [c [Q _]]. exists c. now symmetry. }
  destruct Q as [c Q]. destruct (forwarding_target _ _ _ Q) as [Z0 [Es Eo]].
  assert (In_x : In i (cc_inputs x)) by (rewrite E; apply in_or_app; now left).
  rewrite Forall_forall in Hr. specialize (Hr i In_x). cbn beta in Hr.
  assert (Lt : (Z.to_nat (in_out i) < length (cc_outputs x))%nat) by lia.
  pose proof (nth_error_nth' (cc_outputs x) [] Lt) as Ha. rewrite Eo in Ha.
  destruct (O _ _ Ha) as [b [Hb [ks [Eb [_ Hk]]]]]. rewrite Z2Nat.id in Hk by exact Z0.
  assert (ks = []).
  { destruct ks as [|k ks]; [reflexivity|]. destruct (proj1 (Hk k) (or_introl eq_refl)) as [[_ [j [Hj [Ej Pj]]]] Nm].
    rewrite (Hu i j Hi Hj Ej), Es in Pj. destruct Pj as [Pj|[Pj|[]]]; [|discriminate Pj].
    injection Pj as ->. destruct Nm. left. now left. }
  subst ks. cbn [map app] in Eb. subst b. unfold with_target, target_of. apply Z.leb_le in Z0. rewrite Z0.
  f_equal. f_equal. rewrite Eo. exact (nth_error_nth _ _ [] Hb).
Qed.
Lemma suppress_front : forall fwd e l, Forall (front e) l -> starts l ->
  Forall (front e) (suppress_forwarded fwd l) /\ starts (suppress_forwarded fwd l).
Proof.
  intros fwd e l H Hs. destruct (suppress_spec fwd l) as [L Sp]. split.
  - apply Forall_forall. intros y Hy. apply In_nth_error in Hy. destruct Hy as [m Hm].
    assert (Lt : (m < length l)%nat) by (rewrite <- L; apply nth_error_Some; congruence).
    destruct (nth_error l m) as [x|] eqn:Hx; [|apply nth_error_None in Hx; lia].
    destruct (Sp m x Hx) as [y' [Hy' [F [O _]]]]. assert (y' = y) by congruence. subst y'.
    unfold frame_of, attrs_of in F. injection F as _ _ _ _ _ Fm _ Fi Fo _ _ Ff Fs. intros Ey.
    rewrite Forall_forall in H. apply nth_error_In in Hx. rewrite Fs in Ey. destruct (H x Hx Ey) as [[A B] C].
    split; [split; congruence|]. eapply suppress_fronted; eauto.
  - destruct l as [|x l]; [contradiction|]. destruct (Sp O x eq_refl) as [y [Hy [F _]]].
    destruct (suppress_forwarded fwd (x :: l)) as [|z l']; [discriminate|]. injection Hy as ->.
    unfold frame_of in F. injection F as _ _ _ _ _ _ Fs. cbn [starts] in *. congruence.
Qed.
Lemma fronted_maps : forall e x, fronted e (cc_inputs x) (cc_outputs x) ->
  exists rest, mappings x = map forwarding e ++ rest.
Proof.
  intros e x [[fi [rest [E [Hm _]]]] _]. exists (map (with_target (cc_outputs x)) rest).
  unfold mappings. rewrite E, map_app. fold (with_target (cc_outputs x)). now rewrite <- Hm.
Qed.

(** Each stage begins with the forwarded modifiers. *)
Lemma cut_stage : forall l s, starts l -> In s (cut l) -> exists x r, s = x :: r /\ In x l /\ cc_stage x = true.
Proof.
  intros [|x l] s Hs H; [contradiction|]. cbn [starts] in Hs. revert x s Hs H.
  assert (G : forall l x s ss, cut (x :: l) = s :: ss -> (exists r, s = x :: r) /\
            forall t, In t ss -> exists y r, t = y :: r /\ In y l /\ cc_stage y = true).
  { clear. induction l as [|y l IH]; intros x s ss H.
    - injection H as <- <-. split; [now exists []|contradiction].
    - change (cut (x :: y :: l)) with (if cc_stage y then [x] :: cut (y :: l)
          else match cut (y :: l) with s :: ss => (x :: s) :: ss | [] => [[x]] end) in H.
      destruct (cut (y :: l)) as [|s' ss'] eqn:Ec.
      + destruct (cc_stage y); injection H as <- <-; (split; [now exists []|contradiction]).
      + destruct (IH _ _ _ Ec) as [[r Er] Ht]. destruct (cc_stage y) eqn:Ey; injection H as <- <-.
        * split; [now exists []|]. intros t [<-|Hi]; [exists y, r; split; [exact Er|]; split; [now left|exact Ey]|].
          destruct (Ht t Hi) as [z [q [A [B C]]]]. exists z, q. split; [exact A|]. split; [now right|exact C].
        * split; [now exists s'|]. intros t Hi.
          destruct (Ht t Hi) as [z [q [A [B C]]]]. exists z, q. split; [exact A|]. split; [now right|exact C]. }
  intros x s Hs H. destruct (cut (x :: l)) as [|s0 ss] eqn:E; [contradiction|].
  destruct (G _ _ _ _ E) as [[r Er] Ht]. destruct H as [<-|H]; [exists x, r; split; [exact Er|]; split; [now left|exact Hs]|].
  destruct (Ht s H) as [z [q [A [B C]]]]. exists z, q. split; [exact A|]. split; [now right|exact C].
Qed.
