(** Proofs about the replacement of logical keys. *)
From Coq Require Import List Arith NArith ZArith Bool Lia.
From Verif Require Import Base Key Text Match Stage ParseSeq Config ConfigShape ConfigSpec ConfigProofs.
Import ListNotations.
Local Open Scope N_scope.

Lemma kstate_eqb_true : forall a b, kstate_eqb a b = true -> a = b.
Proof. intros [] []; easy. Qed.

Section Key.
Variable k : logical_key.
Notation both := (lk_both k).
Notation rn := (replace_not_key (lk_both k) (lk_left k) (lk_right k)).

Lemma rn_forbid : forall s, rn s = forbid_both k s.
Proof.
  intros s. unfold replace_not_key, forbid_both. apply flat_map_ext. intros e. rewrite andb_comm.
  destruct ((ek e =? both) && kstate_eqb (es e) Not) eqn:E; [|reflexivity].
  apply andb_prop in E. destruct E as [_ E]. apply kstate_eqb_true in E. now rewrite E.
Qed.
Lemma rk_as : forall c s, replace_key both c s = map (as_key both c) s.
Proof. reflexivity. Qed.
Lemma rk_rn : forall c s, replace_key both c (rn s) = with_key k c s.
Proof. intros c s. now rewrite rn_forbid. Qed.

Hypothesis ne_left : lk_left k <> both.
Hypothesis ne_right : lk_right k <> both.

Lemma contains_rn : forall s, contains_key (rn s) both = held_in both s.
Proof.
  intros s. rewrite rn_forbid. induction s as [|e s IH]; [reflexivity|].
  cbn [forbid_both flat_map held_in existsb]. unfold contains_key. rewrite existsb_app.
  change (existsb (fun e0 => ek e0 =? both) (flat_map _ s)) with (contains_key (forbid_both k s) both).
  rewrite IH. fold (held_in both s). f_equal.
  destruct (ek e =? both) eqn:E1; cbn [andb].
  - destruct (kstate_eqb (es e) Not) eqn:E2; cbn [existsb ek ev0 negb].
    + apply N.eqb_neq in ne_left, ne_right. unfold ev0. cbn [ek]. now rewrite ne_left, ne_right.
    + now rewrite E1.
  - cbn [existsb]. now rewrite E1.
Qed.
Lemma as_key_id : forall c s, contains_key s both = false -> replace_key both c s = s.
Proof.
  intros c s H. rewrite rk_as. induction s as [|e s IH]; [reflexivity|]. unfold contains_key in H. cbn [existsb] in H.
  apply orb_false_iff in H. destruct H as [A B]. cbn [map]. rewrite IH by exact B. unfold as_key. now rewrite A.
Qed.
Lemma contains_rk : forall c s, c <> both -> contains_key (replace_key both c s) both = false.
Proof.
  intros c s Hc. rewrite rk_as. unfold contains_key. induction s as [|e s IH]; [reflexivity|].
  cbn [map existsb]. rewrite IH, orb_false_r. unfold as_key. destruct (ek e =? both) eqn:E; cbn [ek]; [|exact E].
  now apply N.eqb_neq.
Qed.

(** The inputs with their outputs after duplicating. *)
Definition tgt (c : key) (outs : list sequence) (i : input) : target :=
  match target_of outs i with TOut o => TOut (replace_key both c o) | TCmd n => TCmd n end.
Definition doubled (outs : list sequence) (i : input) : list mapping :=
  if contains_key (in_seq i) both
  then [(replace_key both (lk_left k) (in_seq i), tgt (lk_left k) outs i);
        (replace_key both (lk_right k) (in_seq i), tgt (lk_right k) outs i)]
  else [(in_seq i, tgt (lk_left k) outs i)].

Lemma target_grows : forall n outs more i, length outs = n ->
  ((0 <= in_out i)%Z -> (Z.to_nat (in_out i) < n)%nat) -> target_of (outs ++ more) i = target_of outs i.
Proof.
  intros n outs more i L H. unfold target_of. destruct (0 <=? in_out i)%Z eqn:E; [|reflexivity].
  apply Z.leb_le in E. specialize (H E). rewrite app_nth1; [reflexivity|lia].
Qed.
Lemma tgt_grows : forall c n outs more i, length outs = n -> iwf n i -> tgt c (outs ++ more) i = tgt c outs i.
Proof. intros c n outs more i L H. unfold tgt. rewrite (target_grows n); auto. apply H. Qed.
Lemma target_map : forall outs i,
  target_of (map (replace_key both (lk_left k)) outs) i = tgt (lk_left k) outs i.
Proof.
  intros outs i. unfold tgt, target_of. destruct (0 <=? in_out i)%Z; [|reflexivity].
  f_equal. change (@nil event) with (replace_key both (lk_left k) []) at 1. apply map_nth.
Qed.

Lemma duplicate_inputs_spec : forall l outs l' outs',
  duplicate_inputs both (lk_left k) (lk_right k) l outs = (l', outs') ->
  Forall (iwf (length outs)) l ->
  (exists more, outs' = outs ++ more) /\
  map (fun i => (in_seq i, tgt (lk_left k) outs' i)) l' = flat_map (doubled outs) l.
Proof.
  induction l as [|i l IH]; intros outs l' outs' H Hl.
  - injection H as <- <-. split; [now exists []; rewrite app_nil_r|reflexivity].
  - inversion_clear Hl as [|? ? Hi Hl']. cbn [duplicate_inputs] in H. cbn [flat_map].
    unfold doubled at 1. destruct (contains_key (in_seq i) both) eqn:Ec.
    + set (dup := if (0 <=? in_out i)%Z then _ else None) in H. destruct dup as [o|] eqn:D.
      * unfold dup in D. destruct (0 <=? in_out i)%Z eqn:Ez; [|discriminate].
        destruct (nth_error outs (Z.to_nat (in_out i))) as [o'|] eqn:En; [|discriminate].
        destruct (contains_key o' both) eqn:Eo; [|discriminate]. injection D as ->.
        destruct (duplicate_inputs both (lk_left k) (lk_right k) l (outs ++ [replace_key both (lk_right k) o]))
          as [l2 o2] eqn:Ed. injection H as <- <-.
        assert (L : length (outs ++ [replace_key both (lk_right k) o]) = S (length outs)) by (rewrite app_length; cbn; lia).
        apply IH in Ed; [|rewrite L; eapply Forall_impl; [|exact Hl']; intros z; apply iwf_le; lia].
        destruct Ed as [[more ->] Em]. split; [exists ([replace_key both (lk_right k) o] ++ more); now rewrite app_assoc|].
        cbn [map app in_seq]. apply f_equal2; [|apply f_equal2].
        -- apply f_equal2; [reflexivity|]. rewrite <- app_assoc. unfold tgt. rewrite (target_grows (length outs) outs _ (Inp _ (in_out i))); [reflexivity|reflexivity|apply Hi].
        -- apply f_equal2; [reflexivity|]. rewrite <- app_assoc. unfold tgt, target_of. cbn [in_out]. rewrite Ez.
           assert (Z0 : (0 <=? Z.of_nat (length outs))%Z = true) by (apply Z.leb_le; lia). rewrite Z0, Nat2Z.id.
           rewrite app_nth2 by lia. rewrite Nat.sub_diag. cbn [nth app].
           f_equal. rewrite (as_key_id (lk_left k) (replace_key both (lk_right k) o)) by (apply contains_rk; exact ne_right).
           now rewrite (nth_error_nth _ _ _ En).
        -- rewrite Em. rewrite !flat_map_concat_map. f_equal. apply map_ext_in. intros j Hj. unfold doubled.
           rewrite Forall_forall in Hl'. rewrite !(tgt_grows _ (length outs)); auto.
      * destruct (duplicate_inputs both (lk_left k) (lk_right k) l outs) as [l2 o2] eqn:Ed. injection H as <- <-.
        apply IH in Ed; [|exact Hl']. destruct Ed as [[more ->] Em]. split; [now exists more|].
        cbn [map app in_seq]. apply f_equal2; [|apply f_equal2; [|exact Em]].
        -- apply f_equal2; [reflexivity|]. unfold tgt. rewrite (target_grows (length outs) outs _ (Inp _ (in_out i))); [reflexivity|reflexivity|apply Hi].
        -- apply f_equal2; [reflexivity|]. unfold tgt. rewrite (target_grows (length outs) outs _ (Inp _ (in_out i))); [|reflexivity|apply Hi].
           unfold target_of. cbn [in_out]. destruct (0 <=? in_out i)%Z eqn:Ez; [|reflexivity].
           unfold dup in D. try rewrite Ez in D.
           destruct (nth_error outs (Z.to_nat (in_out i))) as [o'|] eqn:En.
           ++ destruct (contains_key o' both) eqn:Eo; [discriminate|]. rewrite (nth_error_nth _ _ _ En).
              now rewrite !as_key_id by exact Eo.
           ++ apply nth_error_None in En. now rewrite nth_overflow.
    + destruct (duplicate_inputs both (lk_left k) (lk_right k) l outs) as [l2 o2] eqn:Ed. injection H as <- <-.
      apply IH in Ed; [|exact Hl']. destruct Ed as [[more ->] Em]. split; [now exists more|].
      cbn [map app in_seq]. apply f_equal2; [|exact Em]. apply f_equal2; [reflexivity|]. now apply tgt_grows with (length outs).
Qed.

Lemma replace_logical_maps : forall x, Forall (iwf (length (cc_outputs x))) (cc_inputs x) ->
  maps_of (replace_logical_in k x) = written_maps k (maps_of x).
Proof.
  intros x Hi. unfold replace_logical_in.
  destruct (duplicate_inputs both (lk_left k) (lk_right k)
              (map (fun i => Inp (rn (in_seq i)) (in_out i)) (cc_inputs x)) (map rn (cc_outputs x)))
    as [ins outs] eqn:E.
  apply duplicate_inputs_spec in E.
  2:{ rewrite map_length, Forall_map. eapply Forall_impl; [|exact Hi]. intros i [A B].
      split; cbn [in_seq in_out]; [now apply not_key_fit|exact B]. }
  destruct E as [_ E]. unfold maps_of, written_maps. cbn [fst snd]. apply f_equal2.
  - unfold mappings at 1. cbn [cc_inputs cc_outputs cc_set_mods cc_set_maps].
    erewrite map_ext; [|intros i; rewrite target_map; reflexivity]. rewrite E.
    unfold mappings. rewrite !flat_map_concat_map, !map_map. f_equal. apply map_ext. intros i.
    unfold doubled, written_out. cbn [in_seq]. rewrite contains_rn.
    assert (T : forall c, tgt c (map rn (cc_outputs x)) (Inp (rn (in_seq i)) (in_out i)) =
                target_with k c (target_of (cc_outputs x) i)).
    { intros c. unfold tgt, target_of. cbn [in_out]. destruct (0 <=? in_out i)%Z; [|reflexivity].
      cbn [target_with]. rewrite <- rk_rn. f_equal. f_equal.
      change (@nil event) with (rn []) at 1. apply map_nth. }
    destruct (held_in both (in_seq i)) eqn:Eh; rewrite !T, <- ?rk_rn; [reflexivity|].
    rewrite as_key_id; [reflexivity|]. now rewrite contains_rn.
  - cbn [cc_commands cc_set_mods cc_set_maps]. rewrite !map_map. apply map_ext. intros m. cbn [cm_out cm_idx].
    now rewrite rk_rn.
Qed.
Lemma written_has : forall m, has_maps (written_maps k m) = has_maps m.
Proof.
  intros [[|[i t] l] cs]; [now destruct cs|]. unfold written_maps. cbn [fst snd flat_map]. unfold written_out at 1.
  now destruct (held_in both i).
Qed.

(** * Modifier filters *)
Section Down.
Variable down : key -> bool.
Hypothesis Hdown : down both = down (lk_left k) || down (lk_right k).

Definition rest_met (s : sequence) : bool :=
  forallb (fun e => ((ek e =? both) && negb (kstate_eqb (es e) Not)) ||
                    Bool.eqb (down (ek e)) (negb (kstate_eqb (es e) Not))) s.
Lemma mods_met_split : forall s,
  mods_met down s = rest_met s && (if held_in both s then down both else true).
Proof.
  induction s as [|e s IH]; [reflexivity|]. unfold mods_met, rest_met, held_in. cbn [forallb existsb].
  fold (mods_met down s) (rest_met s) (held_in both s). rewrite IH.
  destruct (ek e =? both) eqn:E; cbn [andb].
  - apply N.eqb_eq in E. rewrite E. destruct (kstate_eqb (es e) Not); cbn [negb orb andb].
    + now rewrite andb_assoc.
    + destruct (down both), (rest_met s), (held_in both s); reflexivity.
  - now rewrite andb_assoc.
Qed.
Lemma mods_met_with : forall c s, c = lk_left k \/ c = lk_right k ->
  mods_met down (with_key k c s) = rest_met s && (if held_in both s then down c else true).
Proof.
  intros c s Hc. induction s as [|e s IH]; [reflexivity|].
  unfold with_key, forbid_both. cbn [flat_map]. rewrite map_app. unfold mods_met. rewrite forallb_app.
  fold (forbid_both k s). fold (with_key k c s). fold (mods_met down (with_key k c s)). rewrite IH.
  unfold rest_met, held_in. cbn [forallb existsb]. fold (rest_met s) (held_in both s).
  destruct (ek e =? both) eqn:E; cbn [andb].
  - pose proof E as E'. apply N.eqb_eq in E'. destruct (kstate_eqb (es e) Not) eqn:En; cbn [negb orb andb].
    + cbn [map forallb]. unfold as_key, ev0. cbn [ek es].
      apply N.eqb_neq in ne_left. apply N.eqb_neq in ne_right. rewrite ne_left, ne_right. cbn [ek es kstate_eqb negb].
      rewrite E', Hdown. destruct (down (lk_left k)), (down (lk_right k)), (rest_met s); reflexivity.
    + cbn [map forallb]. unfold as_key. rewrite E. cbn [ek es]. rewrite En. cbn [negb].
      destruct (down c), (rest_met s), (held_in both s); reflexivity.
  - cbn [map forallb]. unfold as_key. rewrite E. now rewrite andb_true_r, andb_assoc.
Qed.
Lemma mods_either : forall s, held_in both s = true ->
  mods_met down s = mods_met down (with_key k (lk_left k) s) || mods_met down (with_key k (lk_right k) s).
Proof.
  intros s H. rewrite mods_met_split, !mods_met_with by auto. rewrite H, Hdown.
  destruct (rest_met s), (down (lk_left k)), (down (lk_right k)); reflexivity.
Qed.
Lemma mods_same : forall s, held_in both s = false -> mods_met down s = mods_met down (rn s).
Proof.
  intros s H. transitivity (mods_met down (with_key k (lk_left k) s)).
  - rewrite mods_met_split, mods_met_with by auto. now rewrite H.
  - rewrite <- rk_rn. rewrite as_key_id; [reflexivity|]. now rewrite contains_rn.
Qed.

(** * The meaning *)
Variable other : filter -> filter -> filter -> filter -> filter -> bool.
Notation met := (met_with other down).

Lemma replace_logical_attrs : forall x, attrs_of (replace_logical_in k x) =
  (cc_class x, cc_title x, cc_path x, cc_dev x, cc_devid x, rn (cc_mods x), cc_inv x) /\
  cc_sys (replace_logical_in k x) = cc_sys x.
Proof. intros x. unfold replace_logical_in. now destruct (duplicate_inputs _ _ _ _ _). Qed.

Definition direct (x : cctx) : Prop := cc_inv x = true -> held_in both (cc_mods x) = false.

Lemma add_front_nil : forall {A} (b : list A) n r, add_front [] false (add_front b n r) = add_front b n r.
Proof. intros A b n r. unfold add_front. destruct n; [reflexivity|]. now destruct r. Qed.
Lemma duplicate_go : forall x r on, Forall (iwf (length (cc_outputs x))) (cc_inputs x) ->
  plain_stage x -> direct x ->
  go met on (duplicate_context k (replace_logical_in k x) ++ r) =
  add_front (map (written_maps k) (own (on || applies met x) x)) (starts_stage r)
            (go met (cc_fall x && (on || applies met x)) r) /\
  starts_stage (duplicate_context k (replace_logical_in k x) ++ r) = cc_stage x.
Proof.
  intros x r on Hi Hp Hd. destruct (replace_logical_in_marks k x) as [Ef [Es Em]].
  destruct (replace_logical_attrs x) as [Ea Ey]. pose proof (replace_logical_maps x Hi) as Ep.
  unfold duplicate_context. rewrite Em, contains_rn.
  assert (Eo : forall on', own on' x = [] /\ own on' (replace_logical_in k x) = [] \/
                own on' x = [maps_of x] /\ own on' (replace_logical_in k x) = [written_maps k (maps_of x)]).
  { intros on'. unfold own. rewrite Ef, Ep, written_has. destruct (_ && _); auto. }
  destruct (held_in both (cc_mods x)) eqn:Eh.
  - split; [|exact Es]. cbn [app]. set (x1 := cc_set_fall true _). set (x2 := cc_set_mods _ _ _).
    assert (Ns : cc_stage x = false).
    { destruct (cc_stage x) eqn:E; [|reflexivity]. destruct (Hp E) as [Hm _]. rewrite Hm in Eh. discriminate. }
    assert (Ni : cc_inv x = false).
    { destruct (cc_inv x) eqn:E; [|reflexivity]. rewrite (Hd E) in Eh. discriminate. }
    assert (A : applies met x = applies met x1 || applies met x2).
    { unfold applies. change (cc_sys x1) with (cc_sys (replace_logical_in k x)).
      change (cc_sys x2) with (cc_sys (replace_logical_in k x)). rewrite Ey.
      unfold attrs_of in Ea. injection Ea as E1 E2 E3 E4 E5 E6 E7.
      unfold attrs_of. subst x1 x2.
      cbn [cc_class cc_title cc_path cc_dev cc_devid cc_mods cc_inv cc_set_fall cc_set_maps cc_set_mods].
      rewrite E1, E2, E3, E4, E5, E7, Ni. unfold met_with. rewrite !xorb_false_r, !rk_rn.
      rewrite (mods_either _ Eh). destruct (cc_sys x), (other _ _ _ _ _); cbn [andb]; auto. }
    cbn [go starts_stage]. change (cc_fall x1) with true. change (own _ x1) with (@nil maps) at 1.
    change (cc_stage x2) with (cc_stage (replace_logical_in k x)). rewrite Es, Ns. cbn [andb].
    change (cc_fall x2) with (cc_fall (replace_logical_in k x)). rewrite Ef.
    replace (on || applies met x1 || applies met x2) with (on || applies met x) by (rewrite A; now rewrite orb_assoc).
    change (own (on || applies met x) x2) with (own (on || applies met x) (replace_logical_in k x)).
    rewrite add_front_nil.
    destruct (Eo (on || applies met x)) as [[-> ->]|[-> ->]]; reflexivity.
  - split; [|exact Es]. cbn [app go]. rewrite Ef.
    assert (A : applies met (replace_logical_in k x) = applies met x).
    { unfold applies. rewrite Ey, Ea. f_equal. unfold met_with, attrs_of. f_equal. f_equal.
      symmetry. now apply mods_same. }
    rewrite A. f_equal. destruct (Eo (on || applies met x)) as [[-> ->]|[-> ->]]; reflexivity.
Qed.
Lemma replace_logical_go : forall l on, Forall (fun x => Forall (iwf (length (cc_outputs x))) (cc_inputs x)) l ->
  Forall plain_stage l -> Forall direct l ->
  go met on (replace_logical_key l k) = map (map (written_maps k)) (go met on l) /\
  starts_stage (replace_logical_key l k) = starts_stage l.
Proof.
  unfold replace_logical_key. induction l as [|x l IH]; intros on Hi Hp Hd; [now split|].
  inversion_clear Hi as [|? ? Hx Hi']. inversion_clear Hp as [|? ? Hpx Hp']. inversion_clear Hd as [|? ? Hdx Hd'].
  cbn [map flat_map]. destruct (duplicate_go x (flat_map (duplicate_context k) (map (replace_logical_in k) l)) on Hx Hpx Hdx)
    as [A B]. split; [|exact B]. rewrite A. cbn [go]. destruct (IH (cc_fall x && (on || applies met x)) Hi' Hp' Hd') as [C D].
  rewrite C, D. unfold add_front. destruct (starts_stage l); [reflexivity|].
  destruct (go met _ l) eqn:E; [now apply go_ne in E|]. cbn [map]. now rewrite map_app.
Qed.
End Down.
End Key.

(** * All logical keys, the last one first *)
Section All.
Variable down : key -> bool.
Variable other : filter -> filter -> filter -> filter -> filter -> bool.
Notation met := (met_with other down).

Definition apart (k : logical_key) : Prop := lk_left k <> lk_both k /\ lk_right k <> lk_both k.

Lemma held_in_rn : forall k0 b s,
  held_in b (replace_not_key (lk_both k0) (lk_left k0) (lk_right k0) s) = held_in b s.
Proof.
  intros k0 b s. rewrite rn_forbid. unfold held_in, forbid_both. induction s as [|e s IH]; [reflexivity|].
  cbn [flat_map]. rewrite existsb_app, IH. cbn [existsb]. f_equal.
  destruct ((ek e =? lk_both k0) && kstate_eqb (es e) Not) eqn:E.
  - apply andb_prop in E. destruct E as [_ E]. rewrite E. cbn. now rewrite !andb_false_r.
  - cbn [existsb]. now rewrite orb_false_r.
Qed.
Lemma replace_direct : forall k0 k l, apart k0 -> Forall (direct k0) l -> Forall (direct k) l ->
  Forall (direct k) (replace_logical_key l k0).
Proof.
  intros k0 k l [Al Ar] H0 H. unfold replace_logical_key. apply Forall_flat_map. rewrite Forall_map.
  rewrite Forall_forall in *. intros x Hx. specialize (H0 x Hx). specialize (H x Hx).
  destruct (replace_logical_attrs k0 x) as [Ea _]. unfold attrs_of in Ea. injection Ea as _ _ _ _ _ Em Ei.
  unfold duplicate_context. rewrite Em, contains_rn by auto. destruct (cc_inv x) eqn:E.
  - rewrite (H0 E). constructor; [|constructor]. intros _. rewrite Em, held_in_rn. now apply H.
  - destruct (held_in (lk_both k0) (cc_mods x)); repeat constructor; intros F; exfalso; cbn in F; congruence.
Qed.

Lemma fold_logical_go : forall ks l on, Forall apart ks -> Forall lk_ok ks -> logical_down ks down ->
  cgood True l -> (forall k, In k ks -> Forall (direct k) l) ->
  go met on (fold_left replace_logical_key ks l) =
  map (map (fun m => fold_left (fun m k => written_maps k m) ks m)) (go met on l).
Proof.
  induction ks as [|k ks IH]; intros l on Ha Hk Hd G Hx; cbn [fold_left].
  - symmetry. rewrite <- map_id. apply map_ext. intros a. apply map_id.
  - inversion_clear Ha as [|? ? A Ha']. inversion_clear Hk as [|? ? K Hk'].
    rewrite IH; auto.
    + destruct (replace_logical_go k (proj1 A) (proj2 A) down (Hd k (or_introl eq_refl)) other l on) as [E _].
      * destruct G as [_ Wf _ _]. eapply Forall_impl; [|exact (Wf I)]. intros x [Hi _ _ _]. exact Hi.
      * now destruct G.
      * apply Hx. now left.
      * rewrite E, map_map. apply map_ext. intros s. now rewrite map_map.
    + intros k' Hk'0. apply Hd. now right.
    + now apply replace_logical_good.
    + intros k' Hk'0. apply replace_direct; auto; apply Hx; [now left|now right].
Qed.
End All.

(** * No logical key remains *)
Section Keys.
Definition keys (Q : key -> Prop) (s : sequence) : Prop := Forall (fun e => Q (ek e)) s.
Record ckeys (Q : key -> Prop) (x : cctx) : Prop := CK {
  ck_in : Forall (fun i => keys Q (in_seq i)) (cc_inputs x);
  ck_out : Forall (keys Q) (cc_outputs x);
  ck_cmd : Forall (fun m => keys Q (cm_out m)) (cc_commands x);
  ck_mods : keys Q (cc_mods x)
}.
Lemma ckeys_impl : forall (Q R : key -> Prop) x, (forall c, Q c -> R c) -> ckeys Q x -> ckeys R x.
Proof.
  intros Q R x H [A B C D].
  assert (K : forall s, keys Q s -> keys R s).
  { intros s. apply Forall_impl. intros e. apply H. }
  split; [eapply Forall_impl; [|exact A]|eapply Forall_impl; [|exact B]|eapply Forall_impl; [|exact C]|]; auto;
    intros i; apply K.
Qed.

Variable Q : key -> Prop.
Variable k : logical_key.
Let R (c : key) : Prop := (Q c /\ c <> lk_both k) \/ c = lk_left k \/ c = lk_right k.
Let R0 (c : key) : Prop := Q c \/ c = lk_left k \/ c = lk_right k.

Lemma rn_keys : forall s, keys Q s -> keys R0 (replace_not_key (lk_both k) (lk_left k) (lk_right k) s).
Proof.
  intros s H. unfold replace_not_key. apply Forall_flat_map. eapply Forall_impl; [|exact H]. intros e He.
  destruct (kstate_eqb (es e) Not && (ek e =? lk_both k)).
  - constructor; [unfold R0; cbn; auto|]. constructor; [unfold R0; cbn; auto|constructor].
  - constructor; [now left|constructor].
Qed.
Lemma rk_keys : forall c s, c = lk_left k \/ c = lk_right k -> keys R0 s -> keys R (replace_key (lk_both k) c s).
Proof.
  intros c s Hc H. rewrite rk_as. apply Forall_map. eapply Forall_impl; [|exact H]. intros e He.
  unfold as_key. destruct (ek e =? lk_both k) eqn:E; unfold R; cbn [ek].
  - right. tauto.
  - apply N.eqb_neq in E. destruct He as [He|He]; [left; now split|now right].
Qed.
Lemma R_R0 : forall s, keys R s -> keys R0 s.
Proof. intros s. apply Forall_impl. intros e [[A _]|A]; unfold R0; auto. Qed.
Lemma free_keys : forall s, contains_key s (lk_both k) = false -> keys R0 s -> keys R s.
Proof.
  intros s C H. rewrite <- (as_key_id k (lk_left k) s C). now apply rk_keys; [left|].
Qed.
Lemma duplicate_keys : forall l outs l' outs',
  duplicate_inputs (lk_both k) (lk_left k) (lk_right k) l outs = (l', outs') ->
  Forall (fun i => keys R0 (in_seq i)) l -> Forall (keys R0) outs ->
  Forall (fun i => keys R (in_seq i)) l' /\ Forall (keys R0) outs'.
Proof.
  induction l as [|i l IH]; intros outs l' outs' H Hl Ho.
  - injection H as <- <-. auto.
  - inversion_clear Hl as [|? ? Hi Hl']. cbn [duplicate_inputs] in H.
    destruct (contains_key (in_seq i) (lk_both k)) eqn:Ec.
    + set (dup := if (0 <=? in_out i)%Z then _ else None) in H.
      assert (Od : forall o, dup = Some o -> keys R0 o).
      { intros o D. unfold dup in D. destruct (0 <=? in_out i)%Z; [|discriminate].
        destruct (nth_error outs (Z.to_nat (in_out i))) as [o'|] eqn:Eo; [|discriminate].
        destruct (contains_key o' (lk_both k)); [|discriminate]. injection D as <-.
        rewrite Forall_forall in Ho. apply Ho. now apply nth_error_In in Eo. }
      destruct dup as [o|]; cbv iota in H.
      * destruct (duplicate_inputs _ _ _ l _) as [l2 o2] eqn:E in H. injection H as <- <-. apply IH in E; auto.
        -- destruct E as [E1 E2]. split; [|exact E2]. constructor; [|constructor; [|exact E1]]; cbn [in_seq]; apply rk_keys; auto.
        -- apply Forall_app. split; [exact Ho|]. constructor; [|constructor]. apply R_R0, rk_keys; auto.
      * destruct (duplicate_inputs _ _ _ l _) as [l2 o2] eqn:E in H. injection H as <- <-. apply IH in E; auto.
        destruct E as [E1 E2]. split; [|exact E2]. constructor; [|constructor; [|exact E1]]; cbn [in_seq]; apply rk_keys; auto.
    + destruct (duplicate_inputs _ _ _ l _) as [l2 o2] eqn:E in H. injection H as <- <-. apply IH in E; auto.
      destruct E as [E1 E2]. split; [|exact E2]. constructor; [|exact E1]. now apply free_keys.
Qed.
Hypothesis ap : apart k.
Lemma replace_keys : forall l, Forall (ckeys Q) l -> Forall (ckeys R) (replace_logical_key l k).
Proof.
  intros l H. unfold replace_logical_key. apply Forall_flat_map. rewrite Forall_map. eapply Forall_impl; [|exact H].
  intros x [A B C D]. unfold replace_logical_in.
  destruct (duplicate_inputs _ _ _ _ _) as [ins outs] eqn:E. apply duplicate_keys in E.
  - destruct E as [E1 E2].
    assert (Eo : Forall (keys R) (map (replace_key (lk_both k) (lk_left k)) outs)).
    { rewrite Forall_map. eapply Forall_impl; [|exact E2]. intros o. apply rk_keys. auto. }
    assert (Ec : Forall (fun m => keys R (cm_out m))
       (map (fun o => Cmd (replace_key (lk_both k) (lk_left k) (cm_out o)) (cm_idx o))
          (map (fun o => Cmd (replace_not_key (lk_both k) (lk_left k) (lk_right k) (cm_out o)) (cm_idx o)) (cc_commands x)))).
    { rewrite !Forall_map. cbn [cm_out]. eapply Forall_impl; [|exact C]. intros o Ho. apply rk_keys; [auto|now apply rn_keys]. }
    unfold duplicate_context. cbn [cc_mods cc_set_mods].
    destruct (contains_key (replace_not_key _ _ _ (cc_mods x)) (lk_both k)) eqn:Em.
    + constructor; [|constructor; [|constructor]];
        (split; cbn [cc_inputs cc_outputs cc_commands cc_mods cc_set_fall cc_set_mods cc_set_maps]; auto;
         apply rk_keys; auto; now apply rn_keys).
    + constructor; [|constructor].
      split; cbn [cc_inputs cc_outputs cc_commands cc_mods cc_set_fall cc_set_mods cc_set_maps]; auto.
      apply free_keys; [exact Em|now apply rn_keys].
  - rewrite Forall_map. cbn [in_seq]. eapply Forall_impl; [|exact A]. intros i. apply rn_keys.
  - rewrite Forall_map. eapply Forall_impl; [|exact B]. intros o. apply rn_keys.
Qed.
End Keys.

(** The suppression of forwarded modifiers only mentions keys of inputs. *)
Lemma prepend_not_keys : forall (Q : key -> Prop) c o, Q c -> keys Q o -> keys Q (prepend_not c o).
Proof. intros Q c o Hc Ho. unfold prepend_not. destruct (_ || _); [exact Ho|now constructor]. Qed.
Lemma suppress_input_keys : forall (Q : key -> Prop) n c l i, keys Q (in_seq i) -> Forall (ckeys Q) l ->
  Forall (ckeys Q) (suppress_input n c l i).
Proof.
  intros Q n c l i Hi H. unfold suppress_input. destruct (contains_event (in_seq i) (ev0 c Down)) eqn:E; [|exact H].
  assert (Hc : Q c).
  { unfold contains_event in E. apply existsb_exists in E. destruct E as [e [He Ee]].
    unfold keys in Hi. rewrite Forall_forall in Hi. specialize (Hi e He).
    unfold event_eqb in Ee. apply andb_prop in Ee. destruct Ee as [Ee _]. apply andb_prop in Ee. destruct Ee as [Ee _].
    apply N.eqb_eq in Ee. cbn in Ee. now rewrite Ee. }
  destruct (0 <=? in_out i)%Z.
  - apply Forall_update; [|exact H]. intros x [A B C D]. split; auto. cbn [cc_outputs cc_set_maps].
    apply Forall_update; [|exact B]. intros o. now apply prepend_not_keys.
  - rewrite Forall_map. eapply Forall_impl; [|exact H]. intros x [A B C D]. split; auto.
    cbn [cc_commands cc_set_maps]. rewrite Forall_map. eapply Forall_impl; [|exact C]. intros o Ho.
    destruct (cm_idx o =? in_out i)%Z; [|exact Ho]. now apply prepend_not_keys.
Qed.
Lemma suppress_keys : forall (Q : key -> Prop) fwd l, Forall (ckeys Q) l -> Forall (ckeys Q) (suppress_forwarded fwd l).
Proof.
  intros Q fwd l H. unfold suppress_forwarded.
  apply (fold_left_inv (fun l => Forall (ckeys Q) l) _ (fun _ => True)); [|now apply Forall_forall|exact H].
  intros a n _ Ha.
  apply (fold_left_inv (fun l => Forall (ckeys Q) l) _ (fun _ => True)); [|now apply Forall_forall|exact Ha].
  intros a0 c _ Ha0.
  apply (fold_left_inv (fun l => Forall (ckeys Q) l) _ (fun i => keys Q (in_seq i))); [|  |exact Ha0].
  - intros a1 i Hi Ha1. now apply suppress_input_keys.
  - destruct (nth_error a0 n) as [x|] eqn:En; [|constructor].
    rewrite Forall_forall in Ha0. apply nth_error_In in En. now apply Ha0.
Qed.
