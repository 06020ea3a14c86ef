(** Every configuration which loads is one the runtime is safe for: indices of outputs
    are valid, no key is missing, chains of contexts end inside of their stage. *)
From Coq Require Import String Ascii List NArith ZArith Bool Lia.
From Verif Require Import Base Key KeyNames Text TextSpec TextProofs Match ParseSeq ParseProofs ParseSpec ParseOutput
  ParseInput Stage Config.
Import ListNotations.
Local Open Scope N_scope.

Lemma pbind_ok : forall {A B} (m : pres A) (f : A -> pres B) b,
  pbind m f = POk b -> exists a, m = POk a /\ f a = POk b.
Proof. intros A B [a| | |] f b H; try discriminate. now exists a. Qed.

(** * Sequences *)

(** An event of an output: it names a key (or is the mark ^), values are durations. *)
Definition wfo (e : event) : Prop :=
  (ek e <> 0 \/ es e = OutputOnRelease) /\ (ev e = 0 \/ ek e = k_timeout).
Definition Ook (o : sequence) : Prop := Forall wfo o /\ bal false [] o.

Lemma bal_map : forall f l p, bal false p l ->
  bal false (map f p) (map (fun e => Ev (f (ek e)) (es e) (ev e)) l).
Proof.
  intros f. induction l as [|e l IH]; intros p H; [exact I|]. cbn [map bal ek es] in *.
  destruct (es e); try (apply IH; exact H).
  - split; [apply in_map, H|apply IH, H].
  - apply (IH (ek e :: p)), H.
Qed.
Lemma replace_key_map : forall both k l,
  replace_key both k l
  = map (fun e => Ev ((fun x => if x =? both then k else x) (ek e)) (es e) (ev e)) l.
Proof.
  intros both k l. unfold replace_key. apply map_ext. intros [x s v]. cbn. now destruct (x =? both).
Qed.
Lemma replace_key_Ook : forall both k o, k <> 0 -> both <> k_timeout -> Ook o ->
  Ook (replace_key both k o).
Proof.
  intros both k o Hk Hb [A B]. split.
  - unfold replace_key. rewrite Forall_map. eapply Forall_impl; [|exact A]. intros e [P Q].
    destruct (N.eqb_spec (ek e) both) as [E|E]; [|now split]. split; cbn; [now left|].
    destruct Q as [Q|Q]; [now left|congruence].
  - rewrite replace_key_map. apply (bal_map (fun x => if x =? both then k else x) o []), B.
Qed.
Lemma bal_not_key : forall both a b l p, bal false p l -> bal false p (replace_not_key both a b l).
Proof.
  intros both a b. induction l as [|e l IH]; intros p H; [exact I|].
  unfold replace_not_key. cbn [flat_map]. fold (replace_not_key both a b l).
  destruct (kstate_eqb (es e) Not && (ek e =? both)) eqn:E.
  - apply andb_prop in E. destruct E as [E _]. destruct (es e) eqn:S; try discriminate.
    cbn [app bal es ev0]. apply IH. cbn [bal] in H. now rewrite S in H.
  - cbn [app bal] in *. destruct (es e); try (apply IH, H). split; [apply H|apply IH, H].
Qed.
Lemma not_key_Ook : forall both a b o, a <> 0 -> b <> 0 -> both <> k_timeout -> Ook o ->
  Ook (replace_not_key both a b o).
Proof.
  intros both a b o Ha Hb Ht [A B]. split; [|now apply bal_not_key]. clear B.
  unfold replace_not_key. induction A as [|e o He A IH]; [constructor|].
  cbn [flat_map]. apply Forall_app. split; [|exact IH].
  destruct (kstate_eqb (es e) Not && (ek e =? both)) eqn:E.
  - apply andb_prop in E. destruct E as [_ E]. apply N.eqb_eq in E.
    constructor; [|constructor; [|constructor]]; split; cbn; auto.
    destruct He as [_ [He|He]]; [now left|congruence].
  - constructor; [exact He|constructor].
Qed.
Lemma prepend_not_Ook : forall k o, k <> 0 -> Ook o -> Ook (prepend_not k o).
Proof.
  intros k o Hk [A B]. unfold prepend_not. destruct (_ || _); [now split|]. split.
  - constructor; [|exact A]. split; cbn; auto.
  - exact B.
Qed.

(** * Contexts *)

(** Inputs as they are parsed: with a press, or what is left of ? ContextActive (C37). *)
Definition fit_input (l : sequence) : Prop :=
  (exists m r, l = m ++ r /\ (m = [] \/ m = [ev0 k_none NoMightMatch]) /\
     Forall input_state r /\ exists e, In e r /\ es e = Down) \/
  l = [ev0 k_none NoMightMatch].
Lemma fit_ne : forall l, fit_input l -> l <> [].
Proof.
  intros l [[m [r [-> [_ [_ [e [He _]]]]]]]| ->]; [|discriminate]. destruct r; [contradiction|]. now destruct m.
Qed.
Lemma usable_fit : forall l, usable_input l \/ l = [ev0 k_none NoMightMatch] -> fit_input l.
Proof.
  intros l [[m [r [A [B [C [e [D [F _]]]]]]]]|H]; [|now right]. left. exists m, r. repeat (split; [assumption|]). now exists e.
Qed.
Lemma forward_fit : forall k, fit_input [ev0 k Down; ev0 k UpAsync].
Proof.
  intros k. left. exists [], [ev0 k Down; ev0 k UpAsync]. split; [reflexivity|]. split; [now left|]. split.
  - unfold input_state. constructor; [|constructor; [|constructor]]; cbn; tauto.
  - exists (ev0 k Down). now split; [left|].
Qed.
Lemma replace_key_fit : forall both k l, both <> 0 -> both <> k_timeout ->
  fit_input l -> fit_input (replace_key both k l).
Proof.
  intros both k l Hb Ht [[m [r [-> [Hm [Hs [e [He Hd]]]]]]]| ->].
  - left. exists m, (replace_key both k r). split.
    { unfold replace_key. rewrite map_app. f_equal. destruct Hm as [->| ->]; [reflexivity|]. cbn [map ev0 ek].
      destruct (N.eqb_spec k_none both) as [X|X]; [now destruct Hb|reflexivity]. }
    split; [exact Hm|]. split.
    + unfold replace_key. rewrite Forall_map. eapply Forall_impl; [|exact Hs]. cbn beta. intros x Hx.
      destruct (N.eqb_spec (ek x) both) as [X|X]; [|exact Hx]. unfold input_state in *. cbn [es ek].
      destruct Hx as [Hx|[Hx|[Hx|[Hx|[Hx|[_ Hx]]]]]]; try tauto. congruence.
    + exists (if ek e =? both then Ev k (es e) (ev e) else e). split.
      * unfold replace_key. apply in_map_iff. now exists e.
      * now destruct (ek e =? both).
  - right. cbn [replace_key map ev0 ek]. destruct (N.eqb_spec k_none both) as [X|X]; [now destruct Hb|reflexivity].
Qed.
Lemma not_key_fit : forall both a b l, fit_input l -> fit_input (replace_not_key both a b l).
Proof.
  intros both a b l [[m [r [-> [Hm [Hs [e [He Hd]]]]]]]| ->]; [|right; reflexivity].
  left. exists m, (replace_not_key both a b r). split.
  { unfold replace_not_key. rewrite flat_map_app. f_equal. destruct Hm as [->| ->]; reflexivity. }
  split; [exact Hm|]. split.
  - unfold replace_not_key. apply Forall_flat_map. eapply Forall_impl; [|exact Hs]. cbn beta. intros x Hx.
    destruct (_ && _) eqn:E; [|constructor; [exact Hx|constructor]].
    apply andb_prop in E. destruct E as [E _]. destruct (es x); try discriminate E.
    unfold input_state. constructor; [|constructor; [|constructor]]; cbn; tauto.
  - exists e. split; [|auto]. unfold replace_not_key. apply in_flat_map. exists e. split; [exact He|].
    rewrite Hd. now left.
Qed.

Definition iwf (n : nat) (i : input) : Prop :=
  fit_input (in_seq i) /\ ((0 <= in_out i)%Z -> (Z.to_nat (in_out i) < n)%nat).
Record cwf (x : cctx) : Prop := CW {
  w_in : Forall (iwf (length (cc_outputs x))) (cc_inputs x);
  w_out : Forall Ook (cc_outputs x);
  w_cmd : Forall (fun o => Ook (cm_out o)) (cc_commands x);
  w_idx : NoDup (map cm_idx (cc_commands x))
}.
(** [y] has the mappings of [x]. *)
Definition same_maps (x y : cctx) : Prop :=
  cc_inputs y = cc_inputs x /\ cc_outputs y = cc_outputs x /\ cc_commands y = cc_commands x.
Lemma same_cwf : forall x y, same_maps x y -> cwf x -> cwf y.
Proof. intros x y [A [B C]] [D F G H]. split; rewrite ?A, ?B, ?C; assumption. Qed.

Lemma iwf_le : forall n m i, (n <= m)%nat -> iwf n i -> iwf m i.
Proof. intros n m i H [A B]. split; [exact A|]. intros P. specialize (B P). lia. Qed.

Definition is_fall (x : cctx) := cc_fall x = true.
(** A context which shares the mappings of the next one is followed by one of the same stage. *)
Fixpoint chain (l : list cctx) : Prop :=
  match l with
  | [] => True
  | x :: r => (cc_fall x = true -> match r with y :: _ => cc_stage y = false | [] => False end)
              /\ chain r
  end.
(** The conditions of a context except for the modifiers. *)
Definition conds (x : cctx) :=
  (cc_class x, cc_title x, cc_path x, cc_dev x, cc_devid x, cc_inv x, cc_sys x).
Definition no_conds := (no_filter, no_filter, no_filter, no_filter, no_filter, false, true).
Definition plain_stage (x : cctx) : Prop :=
  cc_stage x = true -> cc_mods x = [] /\ conds x = no_conds /\ cc_fall x = false.

Lemma chain_map : forall f, (forall x, cc_fall (f x) = cc_fall x /\ cc_stage (f x) = cc_stage x) ->
  forall l, chain l -> chain (map f l).
Proof.
  intros f Hf. induction l as [|x l IH]; intros H; [exact I|]. destruct H as [A B].
  cbn [map chain]. split; [|now apply IH]. rewrite (proj1 (Hf x)). intros E. specialize (A E).
  destruct l as [|y l]; [exact A|]. cbn [map]. now rewrite (proj2 (Hf y)).
Qed.
Lemma chain_update : forall f, (forall x, cc_fall (f x) = cc_fall x /\ cc_stage (f x) = cc_stage x) ->
  forall l n, chain l -> chain (update_at n f l).
Proof.
  intros f Hf. induction l as [|x l IH]; intros [|n] H; try exact I; destruct H as [A B]; cbn [update_at chain].
  - split; [|exact B]. now rewrite (proj1 (Hf x)).
  - split; [|now apply IH]. intros E. specialize (A E). destruct l as [|y l]; [contradiction|].
    destruct n; cbn [update_at]; [now rewrite (proj2 (Hf y))|exact A].
Qed.
Lemma chain_snoc : forall l x, chain l -> cc_fall x = false -> chain (l ++ [x]).
Proof.
  induction l as [|y l IH]; intros x H E.
  - cbn. rewrite E. split; [discriminate|exact I].
  - destruct H as [A B]. cbn [app chain]. split; [|now apply IH]. intros F. specialize (A F).
    destruct l as [|z l]; [contradiction|exact A].
Qed.
(** The last but one context gets the mark when the last one belongs to its stage. *)
Lemma chain_mark : forall l x y, chain (l ++ [x; y]) -> cc_stage y = false ->
  chain (l ++ [cc_set_fall true x; y]).
Proof.
  induction l as [|z l IH]; intros x y H E.
  - cbn in *. now split.
  - destruct H as [A B]. cbn [app chain]. split; [|now apply IH]. intros F. specialize (A F).
    destruct l as [|z' l]; exact A.
Qed.
Lemma update_last_but_one : forall {A} (f : A -> A) l x y,
  update_at (length (l ++ [x; y]) - 2) f (l ++ [x; y]) = l ++ [f x; y].
Proof.
  intros A f l x y. rewrite app_length. cbn [length]. rewrite Nat.add_sub.
  induction l as [|z l IH]; [reflexivity|]. cbn [length app update_at]. now rewrite IH.
Qed.
Lemma two_last : forall {A} (l : list A) y, l <> [] -> exists a x, l ++ [y] = a ++ [x; y].
Proof.
  intros A l y H. destruct (exists_last H) as [a [x ->]]. exists a, x. now rewrite <- app_assoc.
Qed.

(** * optimize_contexts *)

Definition head_plain (acc : list cctx) : Prop :=
  match acc with h :: _ => cc_stage h = false | [] => False end.
Fixpoint rchain (rl : list cctx) (nxt : Prop) : Prop :=
  match rl with
  | [] => True
  | x :: r => (cc_fall x = true -> nxt) /\ rchain r (cc_stage x = false)
  end.
Lemma rchain_mono : forall rl (P Q : Prop), (P -> Q) -> rchain rl P -> rchain rl Q.
Proof. intros [|x r] P Q H; [easy|]. intros [A B]. split; auto. Qed.
Lemma back_cons : forall {A} (l : list A) x y, back (x :: y :: l) = back (y :: l).
Proof.
  intros A l x y. destruct (exists_last (l := y :: l)) as [a [z E]]; [discriminate|].
  rewrite E. rewrite app_comm_cons. now rewrite !back_last.
Qed.
Lemma rchain_snoc : forall rl x P, rchain rl P ->
  (cc_fall x = true -> match back rl with Some y => cc_stage y = false | None => P end) ->
  rchain (rl ++ [x]) P.
Proof.
  induction rl as [|y rl IH]; intros x P H E.
  - cbn. now split.
  - destruct H as [A B]. cbn [app rchain]. split; [exact A|]. apply IH; [exact B|].
    intros F. specialize (E F). destruct rl as [|z rl]; [exact E|]. rewrite back_cons in E.
    destruct (exists_last (l := z :: rl)) as [a [w Ew]]; [discriminate|]. rewrite Ew in *. now rewrite back_last in *.
Qed.
Lemma back_rev : forall {A} (l : list A), back (rev l) = match l with x :: _ => Some x | [] => None end.
Proof. intros A [|x l]; [reflexivity|]. cbn [rev]. apply back_last. Qed.
Lemma chain_rchain : forall l, chain l -> rchain (rev l) False.
Proof.
  induction l as [|x l IH]; intros H; [exact I|]. destruct H as [A B]. cbn [rev].
  apply rchain_snoc; [now apply IH|]. intros F. specialize (A F). rewrite back_rev.
  destruct l; exact A.
Qed.

Section Optimize.
Variable P : cctx -> Prop.
Hypothesis P_take : forall moved x, (forall y, moved = Some y -> P y) -> P x -> P (take_over moved x).
Lemma optimize_loop_inv : forall rl moved bc acc,
  Forall P rl -> (forall y, moved = Some y -> P y) -> Forall P acc -> Forall P (optimize_loop rl moved bc acc).
Proof.
  induction rl as [|x rl IH]; intros moved bc acc H M Q; [exact Q|]. inversion_clear H as [|? ? Hx Hr].
  pose proof (P_take moved x M Hx) as Hx'. cbn [optimize_loop]. cbn zeta.
  destruct (cc_fall (take_over moved x)).
  - destruct (_ || _); apply IH; auto; discriminate.
  - destruct (_ || _); apply IH; auto; try discriminate. intros y E. injection E as <-. exact Hx'.
Qed.
End Optimize.

Lemma take_over_stage : forall moved x, cc_stage (take_over moved x) = cc_stage x.
Proof. intros [y|] x; [|reflexivity]. unfold take_over. now destruct (cc_fall x). Qed.
Lemma take_over_mods : forall moved x, cc_mods (take_over moved x) = cc_mods x.
Proof. intros [y|] x; [|reflexivity]. unfold take_over. now destruct (cc_fall x). Qed.
Lemma take_over_fall : forall moved x, cc_fall (take_over moved x) = true -> moved = None /\ cc_fall x = true.
Proof.
  intros [y|] x H; [|now split]. unfold take_over in H. destruct (cc_fall x) eqn:E; [discriminate|congruence].
Qed.
Lemma take_over_maps : forall moved x, same_maps x (take_over moved x) \/
  exists y, moved = Some y /\ same_maps y (take_over moved x).
Proof.
  intros [y|] x; [|left; now repeat split]. unfold take_over. destruct (cc_fall x); [right|left; now repeat split].
  exists y. now repeat split.
Qed.

Lemma optimize_loop_chain : forall rl moved bc acc,
  rchain rl (moved <> None \/ bc = false \/ head_plain acc) -> chain acc ->
  chain (optimize_loop rl moved bc acc).
Proof.
  induction rl as [|x rl IH]; intros moved bc acc H C; [exact C|]. destruct H as [A B].
  cbn [optimize_loop]. cbn zeta. pose proof (take_over_stage moved x) as St.
  destruct (cc_fall (take_over moved x)) eqn:F.
  - destruct (take_over_fall _ _ F) as [-> Fx]. destruct (A Fx) as [N|A']; [easy|]. clear A.
    cbn [take_over] in *. destruct (negb (cc_sys x) || negb bc) eqn:E.
    + apply IH; [|exact C]. eapply rchain_mono; [|exact B]. auto.
    + apply orb_false_iff in E. destruct E as [_ E]. apply negb_false_iff in E. subst bc.
      destruct A' as [A'|A']; [discriminate|]. apply IH; [|now split].
      eapply rchain_mono; [|exact B]. auto.
  - destruct (_ || _).
    + apply IH; [|exact C]. eapply rchain_mono; [|exact B]. intros _. left. discriminate.
    + apply IH.
      * eapply rchain_mono; [|exact B]. intros E. right. right. cbn [head_plain]. now rewrite St.
      * cbn [chain]. rewrite F. split; [discriminate|exact C].
Qed.
Lemma optimize_chain : forall l, chain l -> chain (optimize_contexts l).
Proof.
  intros l H. unfold optimize_contexts.
  assert (C : chain (optimize_loop (rev l) None false [])).
  { apply optimize_loop_chain; [|exact I]. eapply rchain_mono; [|apply chain_rchain, H]. easy. }
  destruct (optimize_loop (rev l) None false []); [|exact C]. cbn. split; [discriminate|exact I].
Qed.
Lemma optimize_inv : forall (P : cctx -> Prop) l,
  (forall moved x, (forall y, moved = Some y -> P y) -> P x -> P (take_over moved x)) ->
  P new_cctx -> Forall P l -> Forall P (optimize_contexts l).
Proof.
  intros P l Ht H0 H. unfold optimize_contexts.
  assert (C : Forall P (optimize_loop (rev l) None false [])).
  { apply optimize_loop_inv; auto; [now apply Forall_rev|discriminate]. }
  destruct (optimize_loop (rev l) None false []); [|exact C]. auto.
Qed.
Lemma optimize_nonempty : forall l, optimize_contexts l <> [].
Proof. intros l. unfold optimize_contexts. now destruct (optimize_loop (rev l) None false []). Qed.

Lemma take_over_cwf : forall moved x, (forall y, moved = Some y -> cwf y) -> cwf x -> cwf (take_over moved x).
Proof.
  intros moved x M H. destruct (take_over_maps moved x) as [E|[y [Em E]]]; (eapply same_cwf; [exact E|]); auto.
Qed.
Lemma take_over_sys : forall moved x, cc_sys (take_over moved x) = cc_sys x.
Proof. intros [y|] x; [|reflexivity]. cbn. now destruct (cc_fall x). Qed.
Lemma take_over_conds : forall moved x, conds (take_over moved x) = conds x.
Proof. intros [y|] x; [|reflexivity]. cbn. now destruct (cc_fall x). Qed.
Lemma take_over_plain : forall moved x, (forall y, moved = Some y -> plain_stage y) -> plain_stage x ->
  plain_stage (take_over moved x).
Proof. intros moved x _ H. unfold plain_stage. rewrite take_over_stage, take_over_mods, take_over_conds. intros E.
  destruct (H E) as [A [B C]]. repeat split; auto. destruct moved; [|exact C]. cbn. now rewrite C. Qed.

(** * replace_logical_key *)

Lemma duplicate_inputs_wf : forall both a b l outs l' outs', b <> 0 -> both <> k_timeout ->
  both <> 0 ->
  duplicate_inputs both a b l outs = (l', outs') ->
  Forall (iwf (length outs)) l -> Forall Ook outs ->
  (length outs <= length outs')%nat /\ Forall (iwf (length outs')) l' /\ Forall Ook outs'.
Proof.
  intros both a b l. induction l as [|i l IH]; intros outs l' outs' Nb Nt Nz H Hl Ho.
  - injection H as <- <-. auto.
  - inversion_clear Hl as [|? ? Hi Hl']. cbn [duplicate_inputs] in H.
    destruct (contains_key (in_seq i) both).
    + set (dup := if (0 <=? in_out i)%Z then _ else None) in H.
      destruct dup as [o|] eqn:D.
      * assert (Oo : Ook o).
        { unfold dup in D. destruct (0 <=? in_out i)%Z; [|discriminate].
          destruct (nth_error outs (Z.to_nat (in_out i))) as [o'|] eqn:Eo; [|discriminate].
          destruct (contains_key o' both); [|discriminate]. injection D as <-.
          rewrite Forall_forall in Ho. apply Ho. now apply nth_error_In in Eo. }
        clear dup D. destruct (duplicate_inputs both a b l (outs ++ [replace_key both b o])) as [l2 o2] eqn:E.
        injection H as <- <-.
        assert (L : length (outs ++ [replace_key both b o]) = S (length outs)) by (rewrite app_length; cbn; lia).
        apply IH in E; auto.
        -- destruct E as [P1 [P2 P3]]. rewrite L in P1. split; [lia|]. split; [|exact P3].
           constructor; [|constructor; [|exact P2]].
           ++ split; [apply replace_key_fit; auto; apply Hi|]. cbn [in_out in_seq]. intros Q. apply Hi in Q. lia.
           ++ split; [apply replace_key_fit; auto; apply Hi|]. cbn [in_out in_seq]. intros Q. rewrite Nat2Z.id. lia.
        -- rewrite L. eapply Forall_impl; [|exact Hl']. intros x. apply iwf_le. lia.
        -- apply Forall_app. split; [exact Ho|]. constructor; [now apply replace_key_Ook|constructor].
      * clear dup D. destruct (duplicate_inputs both a b l outs) as [l2 o2] eqn:E. injection H as <- <-.
        apply IH in E; auto. destruct E as [P1 [P2 P3]]. split; [lia|]. split; [|exact P3].
        constructor; [|constructor; [|exact P2]]; (split; [apply replace_key_fit; auto; apply Hi|]);
          cbn [in_out in_seq]; intros Q; apply Hi in Q; lia.
    + destruct (duplicate_inputs both a b l outs) as [l2 o2] eqn:E. injection H as <- <-.
      apply IH in E; auto. destruct E as [P1 [P2 P3]]. split; [exact P1|]. split; [|exact P3].
      constructor; [|exact P2]. now apply iwf_le with (length outs).
Qed.

Definition lk_ok (k : logical_key) : Prop :=
  lk_left k <> 0 /\ lk_right k <> 0 /\ lk_both k <> k_timeout /\ lk_both k <> 0.
Lemma replace_logical_in_cwf : forall k x, lk_ok k -> cwf x -> cwf (replace_logical_in k x).
Proof.
  intros k x [Hl [Hr [Ht Hz]]] [A B C D]. unfold replace_logical_in.
  set (rn := replace_not_key (lk_both k) (lk_left k) (lk_right k)).
  destruct (duplicate_inputs _ _ _ _ _) as [ins outs] eqn:E.
  apply duplicate_inputs_wf in E; auto.
  - destruct E as [P1 [P2 P3]]. split; cbn [cc_inputs cc_outputs cc_commands cc_set_mods cc_set_maps].
    + now rewrite map_length.
    + rewrite Forall_map. eapply Forall_impl; [|exact P3]. intros o. now apply replace_key_Ook.
    + rewrite !Forall_map. cbn [cm_out]. eapply Forall_impl; [|exact C]. cbn beta. intros o Ho.
      apply replace_key_Ook; auto. now apply not_key_Ook.
    + now rewrite !map_map.
  - rewrite map_length. rewrite Forall_map. eapply Forall_impl; [|exact A]. intros i [P Q].
    split; cbn [in_seq in_out]; [now apply not_key_fit|exact Q].
  - rewrite Forall_map. eapply Forall_impl; [|exact B]. intros o. now apply not_key_Ook.
Qed.
Lemma replace_logical_in_marks : forall k x,
  cc_fall (replace_logical_in k x) = cc_fall x /\ cc_stage (replace_logical_in k x) = cc_stage x /\
  cc_mods (replace_logical_in k x) = replace_not_key (lk_both k) (lk_left k) (lk_right k) (cc_mods x).
Proof.
  intros k x. unfold replace_logical_in. now destruct (duplicate_inputs _ _ _ _ _).
Qed.
Lemma empty_cwf : forall x, cc_inputs x = [] -> cc_outputs x = [] -> cc_commands x = [] -> cwf x.
Proof. intros x A B C. split; rewrite ?A, ?B, ?C; constructor. Qed.

Lemma duplicate_context_stage : forall k x, plain_stage x ->
  Forall (fun y => cc_stage y = cc_stage x) (duplicate_context k x) /\ duplicate_context k x <> [].
Proof.
  intros k x H. unfold duplicate_context. destruct (contains_key (cc_mods x) (lk_both k)); split;
    try discriminate; repeat constructor.
Qed.
Lemma duplicate_chain : forall k l, Forall plain_stage l -> chain l -> chain (flat_map (duplicate_context k) l).
Proof.
  intros k. induction l as [|x l IH]; intros P H; [exact I|]. inversion_clear P as [|? ? Px Pl].
  destruct H as [A B]. specialize (IH Pl B). cbn [flat_map].
  assert (Hd : cc_fall x = true -> head_plain (flat_map (duplicate_context k) l)).
  { intros F. specialize (A F). destruct l as [|y l]; [contradiction|]. cbn [flat_map].
    inversion_clear Pl as [|? ? Py _].
    destruct (duplicate_context_stage k y Py) as [Q N]. destruct (duplicate_context k y) as [|z r]; [easy|].
    inversion_clear Q. cbn. congruence. }
  assert (St : contains_key (cc_mods x) (lk_both k) = true -> cc_stage x = false).
  { intros C. destruct (cc_stage x) eqn:E; [|reflexivity]. rewrite (proj1 (Px E)) in C. discriminate. }
  unfold duplicate_context at 1. destruct (contains_key (cc_mods x) (lk_both k)).
  - cbn [app chain]. split; [intros _; cbn; now apply St|]. split; [|exact IH]. cbn [cc_fall cc_set_mods].
    intros F. specialize (Hd F). now destruct (flat_map (duplicate_context k) l).
  - cbn [app chain]. split; [|exact IH]. intros F. specialize (Hd F).
    now destruct (flat_map (duplicate_context k) l).
Qed.

(** [W] is what makes the mappings well-formed (few enough terminal commands and
    logical keys); the rest holds in any case. *)
Section Good.
Variable W : Prop.
Record cgood (l : list cctx) : Prop := CG {
  cg_ne : l <> [];
  cg_wf : W -> Forall cwf l;
  cg_plain : Forall plain_stage l;
  cg_chain : chain l
}.

Lemma replace_logical_good : forall k l, (W -> lk_ok k) -> cgood l -> cgood (replace_logical_key l k).
Proof.
  intros k l Hk [N Wf Pl C]. unfold replace_logical_key.
  assert (P1 : Forall plain_stage (map (replace_logical_in k) l)).
  { rewrite Forall_map. eapply Forall_impl; [|exact Pl]. intros x Hx E.
    destruct (replace_logical_in_marks k x) as [_ [Es Em]]. rewrite Es in E. destruct (Hx E) as [Hm [Hy Hf]].
    split; [now rewrite Em, Hm|]. unfold replace_logical_in. now destruct (duplicate_inputs _ _ _ _ _). }
  assert (C1 : chain (map (replace_logical_in k) l)).
  { apply chain_map; [|exact C]. intros x. destruct (replace_logical_in_marks k x) as [A [B _]]. now split. }
  assert (W1 : W -> Forall cwf (map (replace_logical_in k) l)).
  { intros w. rewrite Forall_map. eapply Forall_impl; [|exact (Wf w)]. intros x.
    apply replace_logical_in_cwf, Hk, w. }
  assert (N1 : map (replace_logical_in k) l <> []) by (now destruct l).
  set (l1 := map (replace_logical_in k) l) in *. clearbody l1. clear l N Wf Pl C. split.
  - destruct l1 as [|x r]; [easy|]. cbn [flat_map]. inversion_clear P1 as [|? ? Px _].
    destruct (duplicate_context_stage k x Px) as [_ Q]. now destruct (duplicate_context k x).
  - intros w. apply Forall_flat_map. eapply Forall_impl; [|exact (W1 w)]. intros x Hx. unfold duplicate_context.
    destruct (contains_key _ _); [|auto]. constructor; [now apply empty_cwf|]. constructor; [|constructor].
    eapply same_cwf; [|exact Hx]. now repeat split.
  - apply Forall_flat_map. eapply Forall_impl; [|exact P1]. intros x Hx. unfold duplicate_context.
    destruct (contains_key (cc_mods x) (lk_both k)) eqn:Ec; [|auto].
    constructor; [|constructor; [|constructor]]; intros E; cbn in E; rewrite (proj1 (Hx E)) in Ec; discriminate.
  - now apply duplicate_chain.
Qed.
Lemma replace_all_good : forall ks l, (W -> Forall lk_ok ks) -> cgood l -> cgood (fold_left replace_logical_key ks l).
Proof.
  induction ks as [|k ks IH]; intros l H G; [exact G|]. cbn [fold_left].
  apply IH; [intros w; specialize (H w); now inversion_clear H|].
  apply replace_logical_good; [|exact G]. intros w. specialize (H w). now inversion_clear H.
Qed.

(** * Forwarded modifiers *)

Lemma prepend_forward_marks : forall fwd x,
  cc_fall (prepend_forward fwd x) = cc_fall x /\ cc_stage (prepend_forward fwd x) = cc_stage x /\
  cc_mods (prepend_forward fwd x) = cc_mods x /\ conds (prepend_forward fwd x) = conds x.
Proof.
  intros fwd x. unfold prepend_forward. destruct (cc_stage x) eqn:E; [|now rewrite E].
  revert x E. induction (rev fwd) as [|k l IH]; intros x E; [now repeat split|].
  cbn [fold_left]. match goal with |- context[fold_left _ l ?y] => destruct (IH y E) as [A [B [C D]]] end.
  cbn in A, B, C. rewrite A, B, C, D. now repeat split.
Qed.
Lemma prepend_forward_cwf : forall (fwd : list key) x, Forall (fun k : key => k <> 0) fwd -> cwf x -> cwf (prepend_forward fwd x).
Proof.
  intros fwd x H Wx. unfold prepend_forward. destruct (cc_stage x); [|exact Wx].
  apply Forall_rev in H. revert H x Wx. generalize (rev fwd). clear fwd. intros fwd H.
  induction H as [|k l Hk H IH]; intros x Wx; [exact Wx|].
  cbn [fold_left]. apply IH. destruct Wx as [A B C D]. split; cbn [cc_inputs cc_outputs cc_commands cc_set_maps].
  - rewrite app_length. cbn [length]. constructor.
    + split; [|cbn [in_out]; intros _; rewrite Nat2Z.id; lia]. apply forward_fit.
    + eapply Forall_impl; [|exact A]. intros i. apply iwf_le. lia.
  - apply Forall_app. split; [exact B|]. constructor; [|constructor]. split; [|exact I].
    constructor; [|constructor]. split; cbn; auto.
  - exact C.
  - exact D.
Qed.
Lemma prepend_forward_good : forall fwd l, (W -> Forall (fun k : key => k <> 0) fwd) -> cgood l ->
  cgood (map (prepend_forward fwd) l).
Proof.
  intros fwd l H [N Wf Pl C]. split.
  - now destruct l.
  - intros w. rewrite Forall_map. eapply Forall_impl; [|exact (Wf w)]. intros x. apply prepend_forward_cwf, H, w.
  - rewrite Forall_map. eapply Forall_impl; [|exact Pl]. intros x Hx E.
    destruct (prepend_forward_marks fwd x) as [Ef [Es [Em Ey]]]. rewrite Em, Ey, Ef. apply Hx. congruence.
  - apply chain_map; [|exact C]. intros x. destruct (prepend_forward_marks fwd x) as [A [B _]]. now split.
Qed.

Lemma optimize_good : forall l, cgood l -> cgood (optimize_contexts l).
Proof.
  intros l [N Wf Pl C]. split.
  - apply optimize_nonempty.
  - intros w. apply optimize_inv; [apply take_over_cwf|now apply empty_cwf|exact (Wf w)].
  - apply optimize_inv; [apply take_over_plain|intros D; discriminate|exact Pl].
  - now apply optimize_chain.
Qed.

Lemma Forall_update : forall {A} (P : A -> Prop) f l n, (forall x, P x -> P (f x)) -> Forall P l ->
  Forall P (update_at n f l).
Proof.
  intros A P f. induction l as [|x l IH]; intros [|n] Hf H; try exact H; inversion_clear H; cbn; constructor; auto.
Qed.
Lemma update_length : forall {A} f (l : list A) n, length (update_at n f l) = length l.
Proof. intros A f. induction l as [|x l IH]; intros [|n]; cbn; auto. Qed.
Lemma update_nil : forall {A} f (l : list A) n, l <> [] -> update_at n f l <> [].
Proof. intros A f [|x l] [|n] H; easy. Qed.

Lemma suppress_input_good : forall n k l i, (W -> k <> 0) -> cgood l -> cgood (suppress_input n k l i).
Proof.
  intros n k l i Hk [N Wf Pl C]. unfold suppress_input.
  destruct (contains_event _ _); [|now split]. destruct (0 <=? in_out i)%Z.
  - split.
    + now apply update_nil.
    + intros w. specialize (Hk w). apply Forall_update; [|exact (Wf w)]. intros x [A B D F]. split; cbn [cc_inputs cc_outputs cc_commands cc_set_maps].
      * now rewrite update_length.
      * apply Forall_update; [|exact B]. intros o. now apply prepend_not_Ook.
      * exact D.
      * exact F.
    + apply Forall_update; [|exact Pl]. intros x Hx. exact Hx.
    + apply chain_update; [|exact C]. intros x. now split.
  - split.
    + now destruct l.
    + intros w. specialize (Hk w). rewrite Forall_map. eapply Forall_impl; [|exact (Wf w)]. intros x [A B D F].
      split; cbn [cc_inputs cc_outputs cc_commands cc_set_maps]; auto.
      * rewrite Forall_map. eapply Forall_impl; [|exact D]. cbn beta. intros o Ho.
        destruct (cm_idx o =? in_out i)%Z; [|exact Ho]. now apply prepend_not_Ook.
      * rewrite map_map. erewrite map_ext; [exact F|]. intros o. cbn beta.
        now destruct (cm_idx o =? in_out i)%Z.
    + rewrite Forall_map. exact Pl.
    + apply chain_map; [|exact C]. intros x. now split.
Qed.
Lemma fold_left_inv : forall {A B} (P : A -> Prop) (f : A -> B -> A) (Q : B -> Prop) l a,
  (forall a b, Q b -> P a -> P (f a b)) -> Forall Q l -> P a -> P (fold_left f l a).
Proof.
  intros A B P f Q. induction l as [|b l IH]; intros a H F G; [exact G|]. inversion_clear F.
  cbn [fold_left]. apply IH; auto.
Qed.
Lemma suppress_good : forall fwd l, (W -> Forall (fun k : key => k <> 0) fwd) -> cgood l -> cgood (suppress_forwarded fwd l).
Proof.
  intros fwd l H G. unfold suppress_forwarded.
  apply (fold_left_inv cgood _ (fun _ => True)); [|now apply Forall_forall|exact G].
  intros l1 n _ G1. apply (fold_left_inv cgood _ (fun k => W -> k <> 0)); [| |exact G1].
  - intros l2 k Hk G2. apply (fold_left_inv cgood _ (fun _ => True)); [|now apply Forall_forall|exact G2].
    intros l3 i _ G3. now apply suppress_input_good.
  - apply Forall_forall. intros k Hk w. specialize (H w). rewrite Forall_forall in H. now apply H.
Qed.
End Good.
