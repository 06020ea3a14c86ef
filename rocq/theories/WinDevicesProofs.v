(** Proofs about the devices on Windows. *)
From Coq Require Import List Arith NArith ZArith Bool Lia Permutation.
From Verif Require Import Base Key Stage WinServer WinInput WinInputSpec WinDevices WinDevicesSpec.
Import ListNotations.
Local Open Scope N_scope.

(** ** Lists of devices *)

Lemma nth_map : forall {A B} (f : A -> B) l i, nth_error (map f l) i = option_map f (nth_error l i).
Proof. induction l as [|x l IH]; intros [|i]; cbn; auto. Qed.
Lemma remove_map : forall {A B} (f : A -> B) l i, remove_at i (map f l) = map f (remove_at i l).
Proof. induction l as [|x l IH]; intros [|i]; cbn; auto. f_equal. apply IH. Qed.
Lemma remove_mid : forall {A} (a : list A) x b, remove_at (length a) (a ++ x :: b) = a ++ b.
Proof. induction a as [|y a IH]; intros x b; cbn; [reflexivity|]. f_equal. apply IH. Qed.
Lemma nth_mid : forall {A} (a : list A) x b, nth_error (a ++ x :: b) (length a) = Some x.
Proof. induction a as [|y a IH]; intros x b; cbn; auto. Qed.

Section Devices.
Variable filters : Type.
Variable grabs : filters -> device_desc -> bool.

Definition of_pairs (f : filters) (a g : list (N * device_desc)) : wdevices filters :=
  WD f (map fst a) (map snd a) (map fst g) (map snd g).
Notation ok f := (fun x : N * device_desc => grabs f (snd x)).
Notation bad f := (fun x : N * device_desc => negb (grabs f (snd x))).

Lemma apply_pairs : forall f fuel b a g, (length b < fuel)%nat ->
  apply_loop filters grabs fuel (length a) (of_pairs f (a ++ b) g)
  = Some (of_pairs f (a ++ List.filter (ok f) b) (g ++ List.filter (bad f) b)).
Proof.
  intro f. induction fuel as [|fuel IH]; intros b a g L; [lia|].
  destruct b as [|x b].
  - cbn [apply_loop of_pairs wd_descs]. rewrite !app_nil_r.
    rewrite nth_map. rewrite (proj2 (nth_error_None a (length a))) by lia. cbn [List.filter]. rewrite ?app_nil_r. reflexivity.
  - cbn [apply_loop of_pairs wd_descs wd_handles wd_filters].
    rewrite !nth_map, nth_mid. cbn [option_map List.filter].
    destruct (grabs f (snd x)) eqn:G; cbn [negb].
    + cbn [length] in L. specialize (IH b (a ++ [x]) g ltac:(lia)).
      rewrite app_length in IH. cbn [length] in IH. rewrite Nat.add_1_r in IH.
      rewrite <- !app_assoc in IH. cbn [app] in IH. exact IH.
    + cbn [length] in L. specialize (IH b a (g ++ [x]) ltac:(lia)).
      rewrite <- !app_assoc in IH. cbn [app] in IH.
      rewrite !remove_map, !remove_mid.
      cbn [wd_ignored_handles wd_ignored_descs].
      etransitivity; [|exact IH]. unfold of_pairs. rewrite !(map_app _ g [x]). reflexivity.
Qed.

Lemma apply_all : forall f a g,
  apply_device_filters filters grabs (of_pairs f a g)
  = Some (of_pairs f (List.filter (ok f) a) (g ++ List.filter (bad f) a)).
Proof.
  intros f a g. unfold apply_device_filters.
  apply (apply_pairs f _ a [] g). cbn. rewrite map_length. lia.
Qed.

Definition split_by (f : filters) (l : list (N * device_desc)) : wdevices filters :=
  of_pairs f (List.filter (ok f) l) (List.filter (bad f) l).
Lemma reset_pairs : forall f a g, reset_device_filters filters (of_pairs f a g) = of_pairs f (a ++ g) [].
Proof. intros. unfold of_pairs, reset_device_filters. cbn. rewrite !map_app. reflexivity. Qed.
Lemma apply_split : forall f l, apply_device_filters filters grabs (of_pairs f l []) = Some (split_by f l).
Proof. intros. apply apply_all. Qed.

Lemma attached_pairs : forall f a g h x,
  on_device_attached filters grabs h (Some x) (of_pairs f a g) = Some (split_by f ((a ++ g) ++ [(h, x)])).
Proof.
  intros. unfold on_device_attached. rewrite reset_pairs, <- apply_split. cbv zeta. f_equal.
  unfold of_pairs. cbn. rewrite !map_app. reflexivity.
Qed.

(** The devices which are attached *)
Definition state_ok (past : list (rstep filters)) (f : filters) (l : list (N * device_desc)) : Prop :=
  NoDup (map fst l) /\ (forall h x, In (h, x) l <-> desc_of past h = Some x) /\ (forall h x, In (h, x) l -> h <> 0).

Lemma halves_perm : forall f l, Permutation (List.filter (ok f) l ++ List.filter (bad f) l) l.
Proof.
  intros f l. induction l as [|x l IH]; cbn; [constructor|].
  destruct (grabs f (snd x)); cbn.
  - constructor. exact IH.
  - apply Permutation_sym. apply Permutation_cons_app. apply Permutation_sym. exact IH.
Qed.
Lemma state_perm : forall past f l l', Permutation l l' -> state_ok past f l -> state_ok past f l'.
Proof.
  intros past f l l' P (A & B & C). split; [|split].
  - eapply Permutation_NoDup; [apply Permutation_map; exact P|exact A].
  - intros h x. rewrite <- B. split; apply Permutation_in; [apply Permutation_sym|]; exact P.
  - intros h x Q. apply (C h x). eapply Permutation_in; [apply Permutation_sym; exact P|exact Q].
Qed.

Lemma find_handle : forall h (l : list (N * device_desc)) i, find_index (N.eqb h) (map fst l) = Some i ->
  exists x, nth_error l i = Some (h, x).
Proof.
  intros h. induction l as [|[k y] l IH]; intros i H; cbn in H; [discriminate H|].
  destruct (h =? k) eqn:Q.
  - apply N.eqb_eq in Q. injection H as <-. subst k. exists y. reflexivity.
  - destruct (find_index (N.eqb h) (map fst l)) as [j|] eqn:F; [|discriminate H]. injection H as <-.
    apply (IH j eq_refl).
Qed.
Lemma find_none : forall h (l : list (N * device_desc)), find_index (N.eqb h) (map fst l) = None ->
  ~ In h (map fst l).
Proof.
  intros h. induction l as [|[k y] l IH]; cbn; intros H Q; [exact Q|].
  destruct (h =? k) eqn:B; [discriminate H|]. apply N.eqb_neq in B.
  destruct Q as [Q|Q]; [congruence|].
  destruct (find_index (N.eqb h) (map fst l)); [discriminate H|]. exact (IH eq_refl Q).
Qed.
Lemma remove_split : forall {A} (l : list A) i x, nth_error l i = Some x ->
  exists a b, l = a ++ x :: b /\ remove_at i l = a ++ b.
Proof.
  induction l as [|y l IH]; intros [|i] x H; cbn in *; try discriminate H.
  - injection H as ->. exists [], l. auto.
  - destruct (IH i x H) as (a & b & -> & Q). exists (y :: a), b. cbn. rewrite Q. auto.
Qed.

Lemma index_pairs : forall h f a g, h <> 0 -> get_device_index h (of_pairs f a g) = find_index (N.eqb h) (map fst a).
Proof. intros. unfold get_device_index. destruct (N.eqb_spec h 0); [contradiction|reflexivity]. Qed.

Variable vid_pid_rev : list N -> option (N * N * N).
Variable ids_of : N -> list N.
Notation step := (r_step filters grabs vid_pid_rev).
Notation run := (r_run filters grabs vid_pid_rev).

Definition driver_ok (f0 : filters) (past : list (rstep filters)) (r : wdriver filters) : Prop :=
  exists l, dr_devices r = split_by (filters_of f0 past) l /\ state_ok past (filters_of f0 past) l /\
    at_ids (dr_at r) = known past /\
    (forall device h, In (device, h) (at_cache (dr_at r)) -> h <> 0 /\ h = handle_by_ids vid_pid_rev (ids_of device) (known past)).

Lemma by_ids_app : forall ids a b, handle_by_ids vid_pid_rev ids a <> 0 ->
  handle_by_ids vid_pid_rev ids (a ++ b) = handle_by_ids vid_pid_rev ids a.
Proof.
  intros ids. induction a as [|[h x] a IH]; intros b H; cbn [app handle_by_ids] in *; [congruence|].
  destruct (match_ids vid_pid_rev (S (length x)) x ids 0) as [[|]|]; [reflexivity| |]; apply IH; exact H.
Qed.

Lemma attach_ok : forall past f l h info, state_ok past f l -> h <> 0 -> desc_of past h = None ->
  state_ok (RAttached h info :: past) f (match info with Some (x, _) => l ++ [(h, x)] | None => l end).
Proof.
  intros past f l h info (A & B & C) Z D. destruct info as [[x ids]|]; [|split; [|split]; assumption].
  split; [|split].
  - rewrite map_app. cbn. apply NoDup_rev in A. rewrite <- (rev_involutive (map fst l ++ [h])).
    apply NoDup_rev. rewrite rev_app_distr. cbn. constructor; [|exact A].
    rewrite <- in_rev. intro Q. apply in_map_iff in Q. destruct Q as ([k y] & Q & R). cbn in Q. subst k.
    apply B in R. congruence.
  - intros k y. cbn [desc_of]. rewrite in_app_iff. destruct (N.eqb_spec k h) as [->|K].
    + split.
      * intros [Q|[Q|[]]]; [apply B in Q; congruence|congruence].
      * intros Q. right. left. congruence.
    + rewrite B. split; [intros [Q|[Q|[]]]; [exact Q|congruence]|auto].
  - intros k y Q. apply in_app_iff in Q. destruct Q as [Q|[Q|[]]]; [exact (C k y Q)|congruence].
Qed.

Lemma remove_ok : forall past f l h i, state_ok past f l -> find_index (N.eqb h) (map fst l) = Some i ->
  state_ok (RRemoved h :: past) f (remove_at i l).
Proof.
  intros past f l h i (A & B & C) F. destruct (find_handle _ _ _ F) as (x & Q).
  destruct (remove_split _ _ _ Q) as (a & b & -> & ->).
  rewrite map_app in A. cbn in A. pose proof (NoDup_remove_1 _ _ _ A) as A1. pose proof (NoDup_remove_2 _ _ _ A) as A2.
  split; [|split].
  - rewrite map_app. exact A1.
  - intros k y. cbn [desc_of]. destruct (N.eqb_spec k h) as [->|K].
    + split; [|congruence]. intro R. exfalso. apply A2. rewrite <- map_app. apply (in_map fst) in R. exact R.
    + rewrite <- B, !in_app_iff. cbn. split; [tauto|]. intros [R|[R|R]]; [tauto|congruence|tauto].
  - intros k y R. apply (C k y). rewrite in_app_iff in *. cbn. tauto.
Qed.
Lemma absent_ok : forall past f l h, state_ok past f l -> (h = 0 \/ find_index (N.eqb h) (map fst l) = None) ->
  state_ok (RRemoved h :: past) f l.
Proof.
  intros past f l h (A & B & C) F. split; [exact A|]. split; [|exact C].
  intros k y. cbn [desc_of]. destruct (N.eqb_spec k h) as [->|K]; [|apply B].
  split; [|congruence]. intro R. exfalso. destruct F as [->|F]; [exact (C 0 y R eq_refl)|].
  apply (find_none _ _ F). apply (in_map fst) in R. exact R.
Qed.

Lemma step_ok : forall f0 past r x, driver_ok f0 past r -> possible ids_of (x :: past) ->
  exists r' a, step x r = Some (r', a) /\ driver_ok f0 (x :: past) r' /\
    (forall device ids, x = RStroke device ids ->
       let h := handle_by_ids vid_pid_rev ids (known past) in
       a = [if h =? 0 then None else get_device_index h (dr_devices r')]).
Proof.
  intros f0 past r x (l & R & K & I1 & I2) P. destruct r as [d at0]. cbn [dr_devices dr_at] in *.
  pose proof (halves_perm (filters_of f0 past) l) as HP.
  destruct x as [h info|h|f|device ids]; cbn [possible] in P; cbn [r_step dr_devices dr_at].
  - destruct P as (Z & D & _). destruct info as [[x ids]|]; cbn [option_map fst].
    + rewrite R. unfold split_by at 1.
      rewrite attached_pairs. cbn [option_map]. eexists _, _. split; [reflexivity|]. split; [|congruence].
      eexists. cbn [dr_devices dr_at filters_of known]. split; [reflexivity|].
      split; [|split].
      * apply (attach_ok past _ _ h (Some (x, ids))); auto. eapply state_perm; [apply Permutation_sym; exact HP|exact K].
      * cbn. rewrite I1. reflexivity.
      * cbn. intros device h' Q. destruct (I2 device h' Q) as (Q1 & Q2). split; [exact Q1|].
        rewrite by_ids_app by congruence. exact Q2.
    + eexists _, _. split; [reflexivity|]. split; [|congruence].
      exists l. cbn. split; [exact R|]. split; [exact (attach_ok past _ _ h None K Z D)|]. split; [exact I1|exact I2].
  - unfold on_device_removed. rewrite R. unfold split_by. rewrite reset_pairs.
    set (m := _ ++ _) in *. assert (KM : state_ok past (filters_of f0 past) m) by (eapply state_perm; [apply Permutation_sym; exact HP|exact K]).
    assert (W : exists m', state_ok (RRemoved h :: past) (filters_of f0 past) m' /\
      match get_device_index h (of_pairs (filters_of f0 past) m []) with
      | Some i => match nth_error (wd_descs (of_pairs (filters_of f0 past) m [])) i with
                  | Some _ => apply_device_filters filters grabs
                      {| wd_filters := wd_filters (of_pairs (filters_of f0 past) m []);
                         wd_handles := remove_at i (wd_handles (of_pairs (filters_of f0 past) m []));
                         wd_descs := remove_at i (wd_descs (of_pairs (filters_of f0 past) m []));
                         wd_ignored_handles := wd_ignored_handles (of_pairs (filters_of f0 past) m []);
                         wd_ignored_descs := wd_ignored_descs (of_pairs (filters_of f0 past) m []) |}
                  | None => None end
      | None => apply_device_filters filters grabs (of_pairs (filters_of f0 past) m [])
      end = Some (split_by (filters_of f0 past) m')).
    { destruct (N.eqb_spec h 0) as [->|Z].
      - exists m. split; [apply absent_ok; auto|]. cbn [get_device_index N.eqb]. apply apply_split.
      - rewrite index_pairs by exact Z. destruct (find_index (N.eqb h) (map fst m)) as [i|] eqn:F.
        + destruct (find_handle _ _ _ F) as (x & Q). exists (remove_at i m). split; [eapply remove_ok; eassumption|].
          cbn [of_pairs wd_descs wd_filters wd_handles wd_ignored_handles wd_ignored_descs].
          rewrite nth_map, Q. cbn [option_map]. rewrite !remove_map.
          apply (apply_split (filters_of f0 past) (remove_at i m)).
        + exists m. split; [apply absent_ok; auto|]. apply apply_split. }
    destruct W as (m' & W1 & W2). rewrite W2. cbn [option_map]. eexists _, _. split; [reflexivity|]. split; [|congruence].
    exists m'. cbn [dr_devices dr_at filters_of known]. auto.
  - unfold set_grab_filters. rewrite R. unfold split_by. rewrite reset_pairs.
    match goal with |- context [apply_device_filters _ _ ?d] => change d with (of_pairs f (List.filter (ok (filters_of f0 past)) l ++ List.filter (bad (filters_of f0 past)) l) []) end.
    rewrite apply_split. cbn [option_map]. eexists _, _. split; [reflexivity|]. split; [|congruence].
    eexists. cbn [dr_devices dr_at filters_of known]. split; [reflexivity|]. split; [|auto].
    eapply state_perm; [apply Permutation_sym; exact HP|].
    destruct K as (K1 & K2 & K3). split; [|split]; assumption.
  - destruct P as (-> & _). unfold get_device_handle.
    destruct (find (fun x => fst x =? device) (at_cache at0)) as [[dv h]|] eqn:F.
    + pose proof (find_some _ _ F) as (F1 & F2). cbn in F2. apply N.eqb_eq in F2. subst dv.
      destruct (I2 device h F1) as (Q1 & Q2).
      eexists _, _. split; [reflexivity|]. split.
      * exists l. cbn. auto.
      * intros ? ? X. injection X as <- <-. cbv zeta. rewrite <- Q2. reflexivity.
    + rewrite I1. set (h := handle_by_ids vid_pid_rev (ids_of device) (known past)).
      eexists _, _. split; [reflexivity|]. split.
      * exists l. cbn [dr_devices dr_at filters_of known]. split; [exact R|]. split; [exact K|].
        destruct (N.eqb_spec h 0) as [->|Z]; [auto|]. cbn [at_ids at_cache]. split; [reflexivity|].
        intros dv h' [Q|Q]; [|exact (I2 dv h' Q)]. injection Q as <- <-. auto.
      * intros ? ? X. injection X as <- <-. reflexivity.
Qed.

Lemma run_app : forall a b r, run (a ++ b) r =
  match run a r with
  | Some (r, x) => match run b r with Some (r, y) => Some (r, x ++ y) | None => None end
  | None => None
  end.
Proof.
  induction a as [|s a IH]; intros b r; cbn [app r_run].
  - destruct (run b r) as [[? ?]|]; reflexivity.
  - destruct (step s r) as [[r1 x]|]; [|reflexivity]. rewrite IH.
    destruct (run a r1) as [[r2 y]|]; [|reflexivity].
    destruct (run b r2) as [[r3 z]|]; [|reflexivity]. rewrite app_assoc. reflexivity.
Qed.
Lemma run_ok : forall f0 l, possible ids_of (rev l) ->
  exists r a, run l (new_driver f0) = Some (r, a) /\ driver_ok f0 (rev l) r.
Proof.
  intros f0 l. induction l as [|x l IH] using rev_ind; intros P.
  - eexists _, _. split; [reflexivity|]. exists []. cbn. split; [reflexivity|].
    split; [|split; [reflexivity|intros ? ? []]].
    split; [constructor|]. split; [|intros ? ? []]. intros h x. split; [intros []|intro Q; discriminate Q].
  - rewrite rev_app_distr in *. cbn [rev app] in *.
    destruct IH as (r & a & R & D). { destruct x; cbn [possible] in P; tauto. }
    destruct (step_ok f0 (rev l) r x D P) as (r' & b & S1 & D' & _).
    exists r', (a ++ b). split; [|exact D']. rewrite run_app, R. cbn [r_run]. rewrite S1.
    rewrite app_nil_r. reflexivity.
Qed.

(** ** What the lists say *)

Lemma nth_unique : forall (a : list (N * device_desc)) h x, NoDup (map fst a) -> In (h, x) a ->
  exists i, find_index (N.eqb h) (map fst a) = Some i /\ nth_error a i = Some (h, x).
Proof.
  intros a h x ND Q. destruct (find_index (N.eqb h) (map fst a)) as [i|] eqn:F.
  - exists i. split; [reflexivity|]. destruct (find_handle _ _ _ F) as (y & R).
    destruct (remove_split _ _ _ R) as (u & v & -> & _). rewrite R. do 2 f_equal.
    rewrite map_app in ND. cbn in ND. apply NoDup_remove_2 in ND. apply in_app_or in Q.
    destruct Q as [Q|[Q|Q]]; [|congruence|]; exfalso; apply ND; rewrite <- map_app; apply (in_map fst (u ++ v) (h, x)); apply in_or_app; auto.
  - exfalso. apply (find_none _ _ F). apply (in_map fst) in Q. exact Q.
Qed.
Lemma nodup_filter : forall (p : N * device_desc -> bool) l, NoDup (map fst l) -> NoDup (map fst (List.filter p l)).
Proof.
  intros p. induction l as [|x l IH]; cbn; intro H; [constructor|].
  inversion H as [|? ? A B]; subst. destruct (p x); cbn; [|auto]. constructor; [|auto].
  intro Q. apply A. apply in_map_iff in Q. destruct Q as (y & <- & Q). apply filter_In in Q. apply in_map. tauto.
Qed.

Lemma lists_right : forall f0 past r, driver_ok f0 past r ->
  (forall h x, desc_of past h = Some x -> grabs (filters_of f0 past) x = true ->
     exists i, get_device_index h (dr_devices r) = Some i /\ nth_error (wd_descs (dr_devices r)) i = Some x) /\
  (forall h i, get_device_index h (dr_devices r) = Some i ->
     exists x, desc_of past h = Some x /\ grabs (filters_of f0 past) x = true /\ nth_error (wd_descs (dr_devices r)) i = Some x) /\
  (forall h h' i, get_device_index h (dr_devices r) = Some i -> get_device_index h' (dr_devices r) = Some i -> h = h') /\
  length (wd_handles (dr_devices r)) = length (wd_descs (dr_devices r)).
Proof.
  intros f0 past r (l & R & (K1 & K2 & K3) & _). rewrite R. unfold split_by. split; [|split; [|split]].
  - intros h x D G. apply K2 in D. pose proof (K3 _ _ D) as Z.
    assert (Q : In (h, x) (List.filter (ok (filters_of f0 past)) l)) by (apply filter_In; auto).
    destruct (nth_unique _ _ _ (nodup_filter _ _ K1) Q) as (i & F & NI).
    exists i. rewrite index_pairs by exact Z. split; [exact F|]. cbn. rewrite nth_map, NI. reflexivity.
  - intros h i H. destruct (N.eqb_spec h 0) as [->|Z]; [discriminate H|]. rewrite index_pairs in H by exact Z.
    destruct (find_handle _ _ _ H) as (x & NI). exists x. apply nth_error_In in NI as Q.
    apply filter_In in Q. destruct Q as (Q1 & Q2). split; [apply K2; exact Q1|]. split; [exact Q2|].
    cbn. rewrite nth_map, NI. reflexivity.
  - intros h h' i H H'. destruct (N.eqb_spec h 0) as [->|Z]; [discriminate H|].
    destruct (N.eqb_spec h' 0) as [->|Z']; [discriminate H'|]. rewrite index_pairs in H, H' by assumption.
    destruct (find_handle _ _ _ H) as (x & NI). destruct (find_handle _ _ _ H') as (x' & NI'). congruence.
  - cbn. rewrite !map_length. reflexivity.
Qed.

(** ** Strokes *)

Lemma stroke_answer : forall f0 l device ids, possible ids_of (rev (l ++ [RStroke device ids])) ->
  exists r a x, run (l ++ [RStroke device ids]) (new_driver f0) = Some (r, a ++ [x]) /\
    driver_ok f0 (rev (l ++ [RStroke device ids])) r /\
    x = (let h := handle_by_ids vid_pid_rev ids (known (rev l)) in if h =? 0 then None else get_device_index h (dr_devices r)).
Proof.
  intros f0 l device ids P. rewrite rev_app_distr in *. cbn [rev app] in *.
  destruct (run_ok f0 l) as (r & a & R & D). { cbn [possible] in P. tauto. }
  destruct (step_ok f0 (rev l) r _ D P) as (r' & b & S1 & D' & A). specialize (A _ _ eq_refl). cbv zeta in A.
  eexists r', a, _. split; [|split; [exact D'|reflexivity]].
  rewrite run_app, R. cbn [r_run]. rewrite S1, app_nil_r, A. reflexivity.
Qed.
End Devices.

(** ** Identifiers *)

Lemma same_entry_eq : forall a b, same_entry a b = true <-> a = b.
Proof.
  induction a as [|x a IH]; intros [|y b]; cbn; split; intro H; try reflexivity; try discriminate H.
  - apply andb_true_iff in H. destruct H as (H1 & H2). apply N.eqb_eq in H1. apply IH in H2. congruence.
  - injection H as -> ->. rewrite N.eqb_refl. apply IH. reflexivity.
Qed.
Lemma skipn_len : forall {A} (a b : list A), skipn (length a) (a ++ b) = b.
Proof. induction a; cbn; auto. Qed.
Lemma upto_entry : forall e r, identifier e -> upto_zero (e ++ 0 :: r) = e.
Proof.
  induction e as [|c e IH]; intros r H; cbn; [reflexivity|].
  destruct (N.eqb_spec c 0) as [->|Z]; [exfalso; apply H; left; reflexivity|]. rewrite IH; [reflexivity|].
  intro Q. apply H. right. exact Q.
Qed.
Lemma zero_at : forall e r, identifier e -> find_index (N.eqb 0) (e ++ 0 :: r) = Some (length e).
Proof.
  induction e as [|c e IH]; intros r H; cbn [app find_index length]; [reflexivity|].
  destruct (N.eqb_spec 0 c) as [<-|Z]; [exfalso; apply H; left; reflexivity|]. rewrite IH; [reflexivity|].
  intro Q. apply H. right. exact Q.
Qed.

Section Identifiers.
Variable vid_pid_rev : list N -> option (N * N * N).
Definition alike (x y : list N) : Prop := x = y \/ exists n, vid_pid_rev x = Some n /\ vid_pid_rev y = Some n.

Lemma alike_test : forall x y, same_entry x y || same_numbers (vid_pid_rev x) (vid_pid_rev y) = true <-> alike x y.
Proof.
  intros x y. rewrite orb_true_iff, same_entry_eq. unfold alike.
  enough (Q : same_numbers (vid_pid_rev x) (vid_pid_rev y) = true <-> exists n, vid_pid_rev x = Some n /\ vid_pid_rev y = Some n) by (rewrite Q; reflexivity).
  destruct (vid_pid_rev x) as [[[v p] r]|], (vid_pid_rev y) as [[[v' p'] r']|]; cbn; split; intro H; try discriminate H;
    try (destruct H as (n & H1 & H2); discriminate).
  - apply andb_true_iff in H. destruct H as (H & H3). apply andb_true_iff in H. destruct H as (H1 & H2).
    apply N.eqb_eq in H1, H2, H3. subst. eauto.
  - destruct H as (n & H1 & H2). injection H1 as <-. injection H2 as -> -> ->. rewrite !N.eqb_refl. reflexivity.
Qed.

Lemma ends_cons : forall e l, with_ends (e :: l) = e ++ 0 :: with_ends l.
Proof. intros. unfold with_ends. cbn [flat_map]. rewrite <- app_assoc. reflexivity. Qed.
Lemma ends_length : forall l, (length l <= length (with_ends l))%nat.
Proof. induction l as [|e l IH]; [cbn; lia|]. rewrite ends_cons, app_length. cbn [length]. lia. Qed.

Section At.
Variables (p : list N) (e : list N) (rest : list (list N)).
Hypothesis I : identifier e.
Lemma at_entry : entry_at (p ++ with_ends (e :: rest)) (length p) = e.
Proof. unfold entry_at. rewrite skipn_len, ends_cons. apply upto_entry, I. Qed.
Lemma at_next : next_entry (p ++ with_ends (e :: rest)) (length p) = length (p ++ e ++ [0]).
Proof. unfold next_entry. rewrite skipn_len, ends_cons, zero_at by exact I. rewrite !app_length. cbn. lia. Qed.
Lemma at_inside : (length p <? length (p ++ with_ends (e :: rest)))%nat = true.
Proof. apply Nat.ltb_lt. rewrite app_length, ends_cons, app_length. cbn [length]. lia. Qed.
Lemma at_shift : p ++ with_ends (e :: rest) = (p ++ e ++ [0]) ++ with_ends rest.
Proof. rewrite ends_cons, <- !app_assoc. reflexivity. Qed.
End At.

Lemma entry_loop : forall x l fuel p, Forall identifier l -> (length l < fuel)%nat ->
  exists b, match_entry vid_pid_rev fuel x (p ++ with_ends l) (length p) = Some b /\ (b = true <-> exists y, In y l /\ alike x y).
Proof.
  intros x. induction l as [|e l IH]; intros [|fuel] p F L; try (cbn in L; lia).
  - cbn [match_entry with_ends flat_map]. rewrite app_nil_r, Nat.ltb_irrefl. exists false. split; [reflexivity|].
    split; [intro H; discriminate H|intros (y & [] & _)].
  - inversion F as [|? ? I F']; subst. cbn [match_entry].
    rewrite at_inside, at_entry, at_next by exact I.
    destruct (same_entry x e || same_numbers (vid_pid_rev x) (vid_pid_rev e)) eqn:Q.
    + exists true. split; [reflexivity|]. split; [|reflexivity]. intros _. exists e. split; [left; reflexivity|]. apply alike_test, Q.
    + rewrite at_shift. cbn [length] in L. destruct (IH fuel (p ++ e ++ [0]) F' ltac:(lia)) as (b & B1 & B2). exists b. split; [exact B1|].
      rewrite B2. split; [intros (y & Y & Z); exists y; split; [right; exact Y|exact Z]|].
      intros (y & [<-|Y] & Z); [|eauto]. apply alike_test in Z. congruence.
Qed.

Lemma ids_loop : forall bs l fuel p, Forall identifier bs -> Forall identifier l -> (length l < fuel)%nat ->
  exists b, match_ids vid_pid_rev fuel (p ++ with_ends l) (with_ends bs) (length p) = Some b /\ (b = true <-> same_device vid_pid_rev l bs).
Proof.
  intros bs. induction l as [|e l IH]; intros [|fuel] p FB F L; try (cbn in L; lia).
  - cbn [match_ids with_ends flat_map]. rewrite app_nil_r, Nat.ltb_irrefl. exists false. split; [reflexivity|].
    split; [intro H; discriminate H|intros (x & y & [] & _)].
  - inversion F as [|? ? I F']; subst. cbn [match_ids]. rewrite at_inside, at_entry, at_next by exact I.
    cbn [length] in L. destruct (IH fuel (p ++ e ++ [0]) FB F' ltac:(lia)) as (b & B1 & B2). rewrite <- at_shift in B1.
    assert (HB : existsb (N.eqb 92) e = true <-> In 92 e).
    { rewrite existsb_exists. split; [intros (c & C & D); apply N.eqb_eq in D; congruence|]. intro C. exists 92. auto. }
    destruct (existsb (N.eqb 92) e) eqn:HE.
    + destruct (entry_loop e bs (S (length (with_ends bs))) [] FB) as (c & C1 & C2); [pose proof (ends_length bs); lia|].
      cbn [app length] in C1. rewrite C1. destruct c.
      * exists true. split; [reflexivity|]. split; [|reflexivity]. intros _. destruct (proj1 C2 eq_refl) as (y & Y & Z).
        exists e, y. split; [left; reflexivity|]. split; [exact Y|]. split; [apply HB; reflexivity|exact Z].
      * exists b. split; [exact B1|]. rewrite B2. split; [intros (x & y & X & W); exists x, y; split; [right; exact X|exact W]|].
        intros (x & y & [<-|X] & Y & W & Z); [|exists x, y; auto]. assert (false = true) by (apply C2; exists y; split; [exact Y|exact Z]). discriminate.
    + exists b. split; [exact B1|]. rewrite B2. split; [intros (x & y & X & W); exists x, y; split; [right; exact X|exact W]|].
      intros (x & y & [<-|X] & Y & W & Z); [|exists x, y; auto]. apply HB in W. discriminate W.
Qed.

Lemma match_right : forall a b, Forall identifier a -> Forall identifier b ->
  exists r, match_ids vid_pid_rev (S (length (with_ends a))) (with_ends a) (with_ends b) 0 = Some r /\ (r = true <-> same_device vid_pid_rev a b).
Proof. intros a b FA FB. apply (ids_loop b a _ []); auto. pose proof (ends_length a). lia. Qed.

Lemma by_ids_one : forall l b h, Forall identifier b ->
  (forall k ids, In (k, ids) l -> exists es, Forall identifier es /\ ids = with_ends es /\ (same_device vid_pid_rev es b <-> k = h)) ->
  In h (map fst l) -> handle_by_ids vid_pid_rev (with_ends b) l = h.
Proof.
  intros l b h FB. induction l as [|[k ids] l IH]; intros A Q; [destruct Q|]. cbn [handle_by_ids].
  destruct (A k ids (or_introl eq_refl)) as (es & F & -> & S1).
  destruct (match_right es b F FB) as (r & R1 & R2). rewrite R1. destruct r.
  - apply S1, R2. reflexivity.
  - assert (K : k <> h). { intro Z. apply S1, R2 in Z. discriminate Z. }
    apply IH; [intros k' i' Q'; apply A; right; exact Q'|]. destruct Q as [Q|Q]; [contradiction|exact Q].
Qed.
End Identifiers.

(** ** Strokes and inputs *)

Definition finite (n : nat) (p : N -> bool) : bool := forallb (fun i => p (N.of_nat i)) (seq 0 n).
Lemma finite_all : forall n p, finite n p = true -> forall x, (N.to_nat x < n)%nat -> p x = true.
Proof.
  intros n p H x L. unfold finite in H. rewrite forallb_forall in H. specialize (H (N.to_nat x)).
  rewrite N2Nat.id in H. apply H. apply List.in_seq. lia.
Qed.


Definition key_round (scan : N) (ext down : bool) : bool :=
  let e := ev0 (let code := if ext then N.lor scan 0xE000 else scan in if code =? 0xE036 then ShiftRight else code) (if down then Down else Up) in
  (ek e =? code_of (reported (scan, ext))) &&
  negb (ek e =? k_unicode_output) &&
  match send_input e no_high_bytes with
  | ([y], _) => match physical_of y with
                | Some ((s, x), u) => (s =? fst (reported (scan, ext))) && Bool.eqb x (snd (reported (scan, ext))) && Bool.eqb u (negb down)
                | None => false
                end
  | _ => false
  end.
Lemma key_rounds : finite 256 (fun x => (x =? 0) || (key_round x true true && key_round x true false && key_round x false true && key_round x false false)) = true.
Proof. vm_compute. reflexivity. Qed.
Lemma other_high : forall e hb, (ek e =? k_unicode_output) = false ->
  send_input e hb = (fst (send_input e no_high_bytes), hb).
Proof.
  intros e hb H. unfold send_input. destruct (make_button_input e); [reflexivity|]. unfold make_key_input. rewrite H.
  repeat (match goal with |- context [if ?b then _ else _] => destruct b; try reflexivity end).
Qed.

Lemma hook_round : forall vts x hb, 0 < kb_scan x < 256 ->
  exists e y, get_key_event vts x = Some e /\ ek e = code_of (reported (kb_scan x, kb_extended x)) /\
    es e = (if kb_down x then Down else Up) /\
    send_input e hb = ([y], hb) /\ physical_of y = Some (reported (kb_scan x, kb_extended x), negb (kb_down x)).
Proof.
  intros vts [scan vk ext down extra] hb H. cbn [kb_scan kb_extended kb_down] in *.
  unfold get_key_event. cbn [kb_scan kb_extended kb_down kb_vk].
  destruct (N.ltb_spec 0xFF scan) as [Q|_]; [lia|]. destruct (N.eqb_spec scan 0) as [Q|_]; [lia|].
  pose proof (finite_all _ _ key_rounds scan ltac:(lia)) as R. cbv beta in R.
  destruct (N.eqb_spec scan 0) as [Q|_]; [lia|].
  assert (P : key_round scan ext down = true).
  { cbn [orb] in R. apply andb_true_iff in R. destruct R as (R & R4). apply andb_true_iff in R. destruct R as (R & R3).
    apply andb_true_iff in R. destruct R as (R1 & R2). destruct ext, down; assumption. }
  clear R. unfold key_round in P. cbv zeta in P.
  set (e := ev0 _ _) in P. exists e.
  apply andb_true_iff in P. destruct P as (P & P2). apply andb_true_iff in P. destruct P as (P1 & PU).
  apply N.eqb_eq in P1. apply negb_true_iff in PU. rewrite (other_high e hb PU).
  destruct (send_input e no_high_bytes) as [[|y [|? ?]] ?]; try discriminate P2. cbn [fst].
  destruct (physical_of y) as [[[s z] u]|] eqn:PH; try discriminate P2.
  apply andb_true_iff in P2. destruct P2 as (P2 & P5). apply andb_true_iff in P2. destruct P2 as (P3 & P4).
  apply N.eqb_eq in P3. apply Bool.eqb_prop in P4, P5.
  exists y. split; [reflexivity|]. split; [exact P1|]. split; [reflexivity|]. split; [reflexivity|].
  rewrite PH, P3, P4, P5, <- surjective_pairing. reflexivity.
Qed.

(** Keys of the driver *)
Lemma driver_keys : finite 256 (fun x => (x =? 0) || forallb (fun st =>
  match i_event (SKey (KStroke x st)) with
  | Some e => (ek e =? code_of (x, N.testbit st 1)) && kstate_eqb (es e) (if N.testbit st 0 then Up else Down) &&
      match i_send e with SKey (KStroke c s) => (c =? x) && (s =? st) | _ => false end
  | None => false
  end) [0; 1; 2; 3]) = true.
Proof. vm_compute. reflexivity. Qed.
Lemma driver_key_round : forall c st, 0 < c < 256 -> st < 4 ->
  exists e, i_event (SKey (KStroke c st)) = Some e /\ ek e = code_of (c, N.testbit st 1) /\
    es e = (if N.testbit st 0 then Up else Down) /\ i_send e = SKey (KStroke c st).
Proof.
  intros c st H L. pose proof (finite_all _ _ driver_keys c ltac:(lia)) as R. cbv beta in R.
  destruct (N.eqb_spec c 0) as [Q|_]; [lia|]. cbn [orb] in R. rewrite forallb_forall in R.
  specialize (R st). assert (In st [0; 1; 2; 3]) as Q.
  { destruct (N.eq_dec st 0) as [->|]; [cbn; tauto|]. destruct (N.eq_dec st 1) as [->|]; [cbn; tauto|].
    destruct (N.eq_dec st 2) as [->|]; [cbn; tauto|]. assert (st = 3) as -> by lia. cbn; tauto. }
  specialize (R Q). cbv beta in R. destruct (i_event (SKey (KStroke c st))) as [e|]; [|discriminate R].
  exists e. split; [reflexivity|]. apply andb_true_iff in R. destruct R as (R & R3). apply andb_true_iff in R. destruct R as (R1 & R2).
  apply N.eqb_eq in R1. split; [exact R1|]. split; [destruct (es e), (N.testbit st 0); try reflexivity; discriminate R2|].
  destruct (i_send e) as [[c' s']|]; [|discriminate R3]. apply andb_true_iff in R3. destruct R3 as (A & B).
  apply N.eqb_eq in A, B. congruence.
Qed.

(** The mouse *)
Lemma driver_button_round : forall st, In st mouse_flags ->
  exists e, i_event (SMouse (MStroke st 0 0 0)) = Some e /\ i_send e = SMouse (MStroke st 0 0 0).
Proof.
  intros st H. cbn [mouse_flags] in H.
  repeat (destruct H as [<-|H]; [eexists; split; vm_compute; reflexivity|]). destruct H.
Qed.

Lemma wheel_round : forall k z, (0 < Z.abs z < 4096)%Z ->
  k = (if (z <? 0)%Z then WheelDown else WheelUp) \/ k = (if (z <? 0)%Z then WheelLeft else WheelRight) ->
  wheel_value (Ev k Up (Z.to_N (Z.abs z) mod 4096)) = z.
Proof.
  intros k z H K. unfold wheel_value. cbn [ev ek]. rewrite N.mod_small by lia.
  destruct (N.eqb_spec (Z.to_N (Z.abs z)) 0) as [Q|_]; [lia|].
  destruct K as [-> | ->]; destruct (Z.ltb_spec z 0); cbn [WheelDown WheelLeft WheelUp WheelRight N.eqb Pos.eqb orb]; vm_compute (WheelUp =? _); lia.
Qed.
Lemma driver_wheel_round : forall st z, In st wheel_flags -> (0 < Z.abs z < 4096)%Z ->
  exists e, i_event (SMouse (MStroke st z 0 0)) = Some e /\ i_send e = SMouse (MStroke st z 0 0).
Proof.
  intros st z H B. cbn [wheel_flags] in H. destruct H as [<-|[<-|[]]].
  - exists (Ev (if (z <? 0)%Z then WheelDown else WheelUp) Up (Z.to_N (Z.abs z) mod 4096)). split; [reflexivity|].
    pose proof (wheel_round _ z B (or_introl eq_refl)) as W. unfold i_send, i_mouse_stroke. rewrite W.
    destruct (z <? 0)%Z; reflexivity.
  - exists (Ev (if (z <? 0)%Z then WheelLeft else WheelRight) Up (Z.to_N (Z.abs z) mod 4096)). split; [reflexivity|].
    pose proof (wheel_round _ z B (or_intror eq_refl)) as W. unfold i_send, i_mouse_stroke. rewrite W.
    destruct (z <? 0)%Z; reflexivity.
Qed.

Lemma hook_mouse_round : forall message flag high hb,
  (In (message, flag) button_messages /\ high = 0%Z) \/
  (In (message, flag) x_button_messages /\ (high = 1 \/ high = 2)%Z) \/
  (In (message, flag) wheel_messages /\ (0 < Z.abs high < 4096)%Z) ->
  exists e, get_button_event message high = Some e /\ send_input e hb = ([IMouse flag high], hb).
Proof.
  intros message flag high hb [[H ->]|[[H B]|[H B]]].
  - cbn [button_messages] in H. repeat (destruct H as [H|H]; [injection H as <- <-; eexists; split; reflexivity|]). destruct H.
  - cbn [x_button_messages] in H. destruct B as [-> | ->];
    repeat (destruct H as [H|H]; [injection H as <- <-; eexists; split; reflexivity|]); destruct H.
  - cbn [wheel_messages] in H. destruct H as [H|[H|[]]]; injection H as <- <-.
    + exists (Ev (if (high <? 0)%Z then WheelDown else WheelUp) Up (Z.to_N (Z.abs high) mod 4096)). split; [reflexivity|].
      pose proof (wheel_round _ high B (or_introl eq_refl)) as W. unfold send_input, make_button_input. rewrite W.
      destruct (high <? 0)%Z; reflexivity.
    + exists (Ev (if (high <? 0)%Z then WheelLeft else WheelRight) Up (Z.to_N (Z.abs high) mod 4096)). split; [reflexivity|].
      pose proof (wheel_round _ high B (or_intror eq_refl)) as W. unfold send_input, make_button_input. rewrite W.
      destruct (high <? 0)%Z; reflexivity.
Qed.
