(** The matcher on groups, ordered sequences and timeouts. *)
From Coq Require Import List NArith Bool Lia Permutation.
From Verif Require Import Base Key Match MatchProofs MatchSpec MatchLang.
Import ListNotations.
Local Open Scope N_scope.

(** * Ordered sequences *)

Fixpoint iseq (k : key) (ks : list key) : iexpr :=
  match ks with
  | [] => IKey k
  | k' :: r => ISeq (IKey k) (iseq k' r)
  end.

Lemma ikeys_iseq ks : forall k, ikeys (iseq k ks) = k :: ks.
Proof. induction ks as [|k' r IH]; intros k; cbn; [reflexivity|]. rewrite IH. reflexivity. Qed.

Lemma icompile_iseq ks : forall k, icompile (iseq k ks) = ocompile (k :: ks).
Proof.
  induction ks as [|k' r IH]; intros k; cbn [iseq icompile]; [reflexivity|].
  rewrite IH. reflexivity.
Qed.

Lemma iheld_iseq ks : forall k j, NoDup (k :: ks) -> In j (k :: ks) -> iheld (iseq k ks) j = [j].
Proof.
  induction ks as [|k' r IH]; intros k j HN HI; cbn [iseq iheld].
  - destruct HI as [->|[]]. rewrite N.eqb_refl. reflexivity.
  - inversion HN; subst. destruct (N.eqb_spec k j) as [->|Hne].
    + rewrite iheld_notin by (rewrite ikeys_iseq; auto). reflexivity.
    + cbn [app]. apply IH; auto. destruct HI; [congruence|auto].
Qed.

Lemma prefix_incl {A} (a b : list A) c : a ++ b = c -> incl a c.
Proof. intros <-. apply incl_appl, incl_refl. Qed.

Lemma ireleases_iseq k ks sq :
  NoDup (k :: ks) -> incl (presses sq) (k :: ks) ->
  ireleases_ok (iseq k ks) sq <-> releases_pressed sq.
Proof.
  intros HN HI. unfold ireleases_ok, releases_pressed.
  split; intros H l j v r E; specialize (H l j v r E).
  - destruct H as (Hj & N & I). rewrite ikeys_iseq in Hj. rewrite iheld_iseq in I by auto.
    split; auto. apply I. left; auto.
  - destruct H as (P & N).
    assert (In j (k :: ks)). { apply HI. rewrite E, presses_app. apply in_or_app; auto. }
    rewrite ikeys_iseq, iheld_iseq by auto. split; auto. split; auto.
    intros y [<-|[]]. exact P.
Qed.

Theorem match_ordered ks sq :
  ks <> [] -> NoDup ks -> Forall real_key ks -> plain sq ->
  exists r, match_keys (ocompile ks) sq = Some (r, [], None) /\
    (r = Matched <-> presses sq = ks /\ releases_pressed sq) /\
    (r = MightMatch <-> (exists k more, presses sq ++ k :: more = ks) /\ releases_pressed sq).
Proof.
  intros HE HN HR HS. destruct ks as [|k ks]; [congruence|].
  rewrite <- icompile_iseq.
  destruct (match_iexpr (iseq k ks) sq) as (r & M & S1 & S2); auto;
    try (rewrite ikeys_iseq; auto).
  exists r. split; [exact M|]. unfold ifulfils, imight in *. rewrite ikeys_iseq in S1, S2.
  split.
  - rewrite S1. split; intros [P Q]; split; auto; apply (ireleases_iseq k ks sq HN) in Q; auto;
      rewrite P; apply incl_refl.
  - rewrite S2. split; intros [(j & more & P) Q]; (split; [exists j, more; auto|]);
      apply (ireleases_iseq k ks sq HN) in Q; auto; eapply prefix_incl; eauto.
Qed.

(** * Held keys *)

(** [A{B}] *)
Theorem match_held a b sq :
  a <> b -> real_key a -> real_key b -> plain sq ->
  exists r, match_keys [ev0 a Down; ev0 b Down; ev0 b UpAsync; ev0 a UpAsync] sq = Some (r, [], None) /\
    (r = Matched ->
       presses sq = [a; b] /\
       forall l v r, sq = l ++ Ev a Up v :: r -> In b (presses l)) /\
    (r = MightMatch -> releases sq = []).
Proof.
  intros HN Ha Hb HS.
  destruct (match_iexpr (IHold a (IKey b)) sq) as (r & M & S1 & S2); auto.
  { cbn. constructor; [intros [H|[]]; congruence|]. constructor; auto. constructor. }
  { cbn. auto. }
  exists r. split; [exact M|]. split.
  - intros ->. destruct S1 as [[P Q] _]; auto. cbn in P. split; auto.
    intros l v r E. destruct (Q l a v r E) as (_ & _ & I). cbn in I. rewrite N.eqb_refl in I.
    apply I. right; left; auto.
  - intros ->. destruct S2 as [[(k & more & P) Q] _]; auto.
    destruct (releases sq) as [|j js] eqn:ER; auto. exfalso.
    assert (exists l v r, sq = l ++ Ev j Up v :: r) as (l & v & r & E).
    { assert (In j (releases sq)) by (rewrite ER; left; auto).
      unfold releases in H. apply in_map_iff in H. destruct H as ([j' s v] & <- & H).
      apply filter_In in H. destruct H as [H1 H2]. destruct s; try discriminate.
      apply in_split in H1. destruct H1 as (l & r & ->). exists l, v, r. reflexivity. }
    destruct (Q l j v r E) as (Hj & _ & I). cbn in Hj, I, P.
    assert (HL : incl (presses l) (presses sq)).
    { rewrite E, presses_app. apply incl_appl, incl_refl. }
    assert (Hbl : In b (presses sq)).
    { apply HL, I. destruct Hj as [<-|[<-|[]]].
      - rewrite N.eqb_refl. right; left; auto.
      - destruct (N.eqb_spec a b); [congruence|]. rewrite N.eqb_refl. left; auto. }
    destruct (presses sq) as [|x [|y p]]; cbn in P; [destruct Hbl| |].
    + injection P as -> _. destruct Hbl as [|[]]; congruence.
    + injection P as -> -> P. destruct p; discriminate.
Qed.

(** * Timeouts *)

(** When the expression is fulfilled by the history, the next event is compared with
    what follows. *)
Lemma ref_app ex : forall up d h,
  wfp up ex -> plain h -> fst (ref ex up d h) = Matched ->
  exists up' d', forall T rest, ek T = k_timeout -> kstate_eqb (es T) UpAsync = false ->
    ref (ex ++ [T]) up d (h ++ rest) = waiting (Some T) (ref []) up' d' rest.
Proof.
  induction ex as [|e ex IH]; intros up d h HW HS HM; cbn [ref app] in *.
  - clear HW. revert up d HM. induction h as [|x h IHs]; intros up d HM.
    { exists up, d. intros T rest HT HA. rewrite HA. reflexivity. }
    inversion HS; subst. cbn [waiting app] in *.
    destruct (plain_cases x H1) as [[R E]|[R E]]; rewrite E in HM; cbn [ek es] in HM;
      rewrite (real_not_timeout _ R) in HM.
    { discriminate. }
    destruct (mem_key (ek x) up) eqn:M; [|discriminate].
    destruct (IHs H2 _ _ HM) as (up' & d' & HH). exists up', d'.
    intros T rest HT HA. rewrite HA. rewrite (real_not_timeout _ R).
    rewrite E. cbn [es ek]. rewrite ?M. specialize (HH T rest HT HA). rewrite HA in HH. exact HH.
  - destruct HW as (R & N & [(E & A & W)|(E & W)]); rewrite E in *; cbn [kstate_eqb] in *.
    { destruct (IH _ _ _ W HS HM) as (up' & d' & HH). exists up', d'. exact HH. }
    revert up d N W HM. induction h as [|x h IHs]; intros up d N W HM; [discriminate|].
    inversion HS; subst. cbn [waiting app] in *.
    destruct (plain_cases x H1) as [[Rx Ex]|[Rx Ex]]; rewrite Ex in HM; cbn [ek es] in HM;
      rewrite (real_not_timeout _ Rx) in HM.
    + destruct (ek x =? ek e) eqn:Q; [|discriminate].
      assert (W' : wfp (remove_key (ek x) up) ex)
        by (eapply wfp_weaken; [|exact W]; intros k HI; apply remove_key_In in HI; tauto).
      destruct (IH _ _ _ W' H2 HM) as (up' & d' & HH). exists up', d'.
      intros T rest HT HA. rewrite (real_not_timeout _ Rx), Ex. cbn [es ek]. rewrite ?Q.
      apply HH; auto.
    + destruct (mem_key (ek x) up) eqn:M; [|discriminate].
      assert (W' : wfp (remove_key (ek x) up) ex)
        by (eapply wfp_weaken; [|exact W]; intros k HI; apply remove_key_In in HI; tauto).
      assert (N' : ~ In (ek e) (remove_key (ek x) up))
        by (intros HI; apply remove_key_In in HI; tauto).
      destruct (IHs H2 _ _ N' W' HM) as (up' & d' & HH). exists up', d'.
      intros T rest HT HA. rewrite (real_not_timeout _ Rx), Ex. cbn [es ek]. rewrite ?M.
      apply HH; auto.
Qed.

Lemma wfx_app_timeout ex T : forall up,
  wfp up ex -> ek T = k_timeout ->
  (es T = Up \/ es T = Down \/ is_not_timeout (es T) = true) -> wfx up (ex ++ [T]).
Proof.
  induction ex as [|e ex IH]; intros up HW HT HS; cbn.
  - right; right. auto.
  - destruct HW as (R & N & [(E & A & W)|(E & W)]).
    + left. repeat split; auto; apply R.
    + right; left. rewrite remove_key_notin by auto. repeat split; auto; apply R.
Qed.

(** An expression followed by a timeout: when the keys were pressed as demanded,
    the timeout is requested, and an elapsed time decides. *)
Theorem match_timeout x T h t :
  NoDup (ikeys x) -> Forall real_key (ikeys x) -> plain h -> ifulfils x h ->
  ek T = k_timeout -> (es T = Up \/ es T = Down \/ es T = Not \/ es T = NotTimeoutUpDown) ->
  match_keys (icompile x ++ [T]) h = Some (MightMatch, [], Some T) /\
  exists r, match_keys (icompile x ++ [T]) (h ++ [Ev k_timeout Up t]) = Some (r, [], None) /\
    (r = Matched \/ r = NoMatch) /\
    (r = Matched <-> if is_not_timeout (es T) then t < ev T else ev T <= t).
Proof.
  intros HN HR HS HF HT HST.
  assert (HW : wfp [] (icompile x)).
  { rewrite <- (app_nil_r (icompile x)). apply wfp_icompile; auto. exact I. }
  assert (HST' : es T = Up \/ es T = Down \/ is_not_timeout (es T) = true).
  { destruct HST as [->|[->|[->| ->]]]; auto. }
  assert (HX : wfx [] (icompile x ++ [T])) by (apply wfx_app_timeout; auto).
  assert (HP : Forall timed_event h).
  { eapply Forall_impl; [|exact HS]. intros e He. left; auto. }
  assert (HA : kstate_eqb (es T) UpAsync = false).
  { destruct HST as [->|[->|[->| ->]]]; reflexivity. }
  assert (HM : fst (ref (icompile x) [] false h) = Matched).
  { apply (ref_spec (icompile x) [] false h HW HS). destruct HF as [P Q].
    split; [rewrite presses_icompile; auto|].
    apply rel_ok_icompile; auto. exists []. rewrite app_nil_r. auto. }
  destruct (ref_app _ _ _ _ HW HS HM) as (up' & d' & HH).
  split.
  - rewrite match_keys_ref by auto. rewrite <- (app_nil_r h). rewrite HH by auto.
    cbn. rewrite HT. reflexivity.
  - rewrite match_keys_ref; auto.
    2:{ apply Forall_app. split; auto. constructor; [|constructor]. right. split; reflexivity. }
    rewrite HH by auto. cbn [waiting ek]. rewrite HT, N.eqb_refl. unfold unif_timeout. cbn [es ev].
    cbn [is_not_timeout orb].
    destruct (is_not_timeout (es T)); destruct (N.leb_spec (ev T) t); cbn [negb ref waiting];
      eexists; (split; [reflexivity|]); (split; [cbn; auto|]); cbn;
      split; intros HH'; try discriminate; try reflexivity; try lia.
Qed.

(** * Groups *)

Definition gasync (todo P : list key) : list event :=
  map (fun k => Ev k (if mem_key k P then Down else DownAsync) 0) todo.

(** After all keys were pressed. *)
Definition gtail (ks : list key) (sq : sequence) : mresult :=
  fst (ref (map (fun k => ev0 k UpAsync) ks) [] true sq).

Fixpoint gref (ks pressed : list key) (sq : sequence) : mresult :=
  if forallb (fun k => mem_key k pressed) ks then gtail ks sq
  else match sq with
       | [] => MightMatch
       | x :: r => match es x with
                   | Down => if mem_key (ek x) ks && negb (mem_key (ek x) pressed)
                             then gref ks (ek x :: pressed) r else NoMatch
                   | _ => NoMatch
                   end
       end.

(** Keys pressed before the first release are pressed once. *)
Fixpoint fresh (pressed : list key) (sq : sequence) : Prop :=
  match sq with
  | [] => True
  | x :: r => match es x with
              | Down => ~ In (ek x) pressed /\ fresh (ek x :: pressed) r
              | _ => True
              end
  end.

Lemma fresh_equiv sq : forall p p', (forall k, In k p <-> In k p') -> fresh p sq -> fresh p' sq.
Proof.
  induction sq as [|x r IH]; intros p p' H; cbn; auto.
  destruct (es x); auto. intros [H1 H2]. split; [rewrite <- H; auto|].
  eapply IH; [|exact H2]. intros k. cbn. rewrite H. tauto.
Qed.

Lemma mem_key_equiv k p p' : (forall j, In j p <-> In j p') -> mem_key k p = mem_key k p'.
Proof.
  intros H. destruct (mem_key k p) eqn:E; symmetry.
  - apply mem_key_In. apply H. apply mem_key_In. auto.
  - apply mem_key_false. rewrite <- H. apply mem_key_false. auto.
Qed.

Lemma forallb_ext {A} (f g : A -> bool) l : (forall x, f x = g x) -> forallb f l = forallb g l.
Proof. intros H. induction l; cbn; congruence. Qed.

Lemma gref_equiv ks sq : forall p p', (forall k, In k p <-> In k p') -> gref ks p sq = gref ks p' sq.
Proof.
  induction sq as [|x r IH]; intros p p' H.
  - cbn. rewrite (forallb_ext (fun k => mem_key k p) (fun k => mem_key k p')); auto.
    intros k. apply mem_key_equiv; auto.
  - cbn. rewrite (forallb_ext (fun k => mem_key k p) (fun k => mem_key k p'))
      by (intros k; apply mem_key_equiv; auto).
    rewrite (mem_key_equiv (ek x) p p') by auto.
    rewrite (IH (ek x :: p) (ek x :: p')); auto.
    intros k. cbn. rewrite H. tauto.
Qed.

Lemma pair_no_upasync k a : forall p,
  (forall x, In x a -> es x <> UpAsync) ->
  (forall x, p = Some x -> es x <> UpAsync) ->
  unmatched_async_pair k p a = false.
Proof.
  induction a as [|x a IH]; intros p Ha Hp; cbn; [reflexivity|].
  destruct (event_eqb_spec x (ev0 k DownAsync)) as [E|_].
  - destruct p as [y|]; [|reflexivity].
    destruct (event_eqb_spec y (ev0 k UpAsync)) as [Ey|]; [|reflexivity].
    exfalso. apply (Hp y); auto. rewrite Ey. reflexivity.
  - apply IH; [intros y Hy; apply Ha; right; auto|].
    intros y Hy. injection Hy as <-. apply Ha. left; auto.
Qed.

Lemma gasync_es todo P x : In x (gasync todo P) -> es x = Down \/ es x = DownAsync.
Proof.
  unfold gasync. intros H. apply in_map_iff in H. destruct H as (k & <- & _). cbn.
  destruct (mem_key k P); auto.
Qed.
Lemma gasync_ek todo P x : In x (gasync todo P) -> In (ek x) todo.
Proof.
  unfold gasync. intros H. apply in_map_iff in H. destruct H as (k & <- & H). exact H.
Qed.

Lemma gasync_find_down todo P j :
  Forall real_key todo -> real_key j -> NoDup todo ->
  match find_index (fun x => kstate_eqb (es x) DownAsync && unif_key j (ek x)) (gasync todo P) with
  | Some i => In j todo /\ ~ In j P /\ update_at i (set_es Down) (gasync todo P) = gasync todo (j :: P)
  | None => ~ (In j todo /\ ~ In j P)
  end.
Proof.
  intros HR Hj HN. induction todo as [|k todo IH]; [intros [[] _]|].
  inversion HR; subst. inversion HN; subst. specialize (IH H2 H4).
  unfold gasync in *. cbn [map find_index es ek].
  rewrite (unif_key_real j k) by auto.
  assert (HX : forall l, ~ In j l -> map (fun k => Ev k (if mem_key k (j :: P) then Down else DownAsync) 0) l
                         = map (fun k => Ev k (if mem_key k P then Down else DownAsync) 0) l).
  { intros l Hl. apply map_ext_in. intros x Hx. cbn.
    destruct (N.eqb_spec x j); [subst; contradiction|reflexivity]. }
  destruct (N.eqb_spec j k) as [->|Hne].
  - destruct (mem_key k P) eqn:M; cbn [kstate_eqb andb].
    + apply mem_key_In in M.
      destruct (find_index _ _) as [i|]; [|tauto].
      destruct IH as (? & ? & _). contradiction.
    + apply mem_key_false in M. split; [left; auto|]. split; auto.
      cbn [update_at set_es ek es ev mem_key existsb]. rewrite N.eqb_refl. cbn [orb].
      f_equal. symmetry. apply HX. auto.
  - rewrite andb_false_r. destruct (find_index _ _) as [i|].
    + destruct IH as (I1 & I2 & I3). split; [right; auto|]. split; auto.
      cbn [update_at mem_key existsb]. rewrite I3. f_equal.
      assert (E : (k =? j) = false) by (apply N.eqb_neq; congruence). rewrite E. reflexivity.
    + intros [[H|H] HP]; [congruence|]. apply IH. auto.
Qed.

Lemma gstep_direct k todo P v e d :
  real_key k -> Forall real_key todo -> NoDup (k :: todo) ->
  match_step (ev0 k Down) (Ev k Down v) false (mk (gasync (k :: todo) P) e d)
  = MGo true true (mk (gasync todo P) (S e) true).
Proof.
  intros Hk HR HN. unfold match_step, mk, ev0.
  cbn [ms_not ms_async ms_any ms_nmm ms_e ms_down ms_ign es ek remove_key filter mem_key existsb kstate_eqb orb andb].
  rewrite (real_not_any _ Hk). cbn [andb].
  assert (U : unif_event (Ev k Down v) (Ev k Down 0) = true).
  { unfold unif_event. cbn [ek es]. rewrite (real_not_any _ Hk), (unif_key_real k k) by auto.
    rewrite N.eqb_refl, (real_not_timeout _ Hk). reflexivity. }
  rewrite U. cbn [negb andb]. rewrite orb_true_r.
  assert (F : filter (fun x => negb (k =? ek x)) (gasync (k :: todo) P) = gasync todo P).
  { unfold gasync. cbn [map filter ek]. rewrite N.eqb_refl. cbn [negb].
    inversion HN; subst. clear - H1. induction todo as [|j todo IH]; [reflexivity|].
    cbn [map filter ek]. destruct (N.eqb_spec k j); [subst; exfalso; apply H1; left; auto|].
    cbn [negb]. f_equal. apply IH. intros H. apply H1. right; auto. }
  rewrite F. reflexivity.
Qed.

Lemma gstep_other k todo P se b e d :
  real_key k -> Forall real_key todo -> NoDup (k :: todo) ->
  (se = matches_none \/ plain_event se) -> unif_event se (ev0 k Down) = false ->
  match_step (ev0 k Down) se b (mk (gasync (k :: todo) P) e d) =
  match find_index (fun x => kstate_eqb (es x) (match es se with Up => UpAsync | _ => DownAsync end)
                             && unif_key (ek se) (ek x)) (gasync (k :: todo) P) with
  | Some i =>
      MGo false true (mk (update_at i (set_es (es se)) (gasync (k :: todo) P)) e
                         (d || (negb b && kstate_eqb (es se) Down)))
  | None =>
      if mem_key k P then MGo true false (mk (gasync todo P) (S e) d)
      else MRet (if b then MightMatch else NoMatch) None
  end.
Proof.
  intros Hk HR HN Hse HU. unfold match_step, mk, ev0 in *.
  cbn [ms_not ms_async ms_any ms_nmm ms_e ms_down ms_ign remove_key filter mem_key existsb].
  rewrite andb_false_r, HU.
  cbn [ek es kstate_eqb orb andb].
  rewrite (real_not_any _ Hk), (real_not_timeout _ Hk). cbn [andb negb].
  destruct (find_index _ _) as [i|]; [reflexivity|].
  assert (H1 : kstate_eqb (es se) DownMatched || kstate_eqb (es se) UpMatched = false).
  { destruct Hse as [->|[_ [-> | ->]]]; reflexivity. }
  rewrite H1.
  assert (UN : forall x, In x (gasync todo P) -> unif_event (Ev k Down 0) x = false).
  { intros x Hx. apply gasync_ek in Hx. rewrite Forall_forall in HR. specialize (HR _ Hx).
    inversion HN; subst.
    unfold unif_event. cbn [ek es]. rewrite (real_not_any _ Hk), (real_not_any _ HR).
    rewrite (unif_key_real _ _ Hk HR). cbn [andb].
    destruct (N.eqb_spec k (ek x)); [subst; contradiction|reflexivity]. }
  assert (F : find_index (fun x => unif_event (Ev k Down 0) x) (gasync (k :: todo) P)
              = if mem_key k P then Some 0%nat else None).
  { change (gasync (k :: todo) P)
      with (Ev k (if mem_key k P then Down else DownAsync) 0 :: gasync todo P).
    cbn [find_index]. unfold unif_event at 1. cbn [ek es].
    rewrite (real_not_any _ Hk), (unif_key_real _ _ Hk Hk), N.eqb_refl, (real_not_timeout _ Hk).
    cbn [andb negb]. destruct (mem_key k P); [reflexivity|]. cbn [unif_state norm_state kstate_eqb].
    rewrite (find_index_none_ex (fun x => unif_event (Ev k Down 0) x) _ UN). reflexivity. }
  rewrite F. destruct (mem_key k P); [reflexivity|].
  rewrite pair_no_upasync.
  2:{ intros x Hx HE. apply gasync_es in Hx. destruct Hx; congruence. }
  2:{ intros x Hx. discriminate. }
  destruct Hse as [->|[R [E|E]]].
  - reflexivity.
  - rewrite (real_not_timeout _ R). reflexivity.
  - rewrite (real_not_timeout _ R). reflexivity.
Qed.

Lemma ref_up_d ks : forall up d d' sq, plain sq ->
  ref (map (fun k => ev0 k UpAsync) ks) up d sq = ref (map (fun k => ev0 k UpAsync) ks) up d' sq.
Proof.
  induction ks as [|k ks IH]; intros up d d' sq HS; cbn [map ref].
  - revert up. induction sq as [|x sq IHs]; intros up; cbn; [reflexivity|].
    inversion HS; subst.
    destruct (plain_cases x H1) as [[R E]|[R E]]; rewrite (real_not_timeout _ R), E; cbn [es ek].
    + reflexivity.
    + destruct (mem_key (ek x) up); [|reflexivity]. apply IHs; auto.
  - cbn [ev0 es kstate_eqb]. apply IH; auto.
Qed.

Lemma ref_up_snd ks : forall up d sq, plain sq ->
  snd (ref (map (fun k => ev0 k UpAsync) ks) up d sq) = None.
Proof.
  induction ks as [|k ks IH]; intros up d sq HS; cbn [map ref].
  - revert up. induction sq as [|x sq IHs]; intros up; cbn; [reflexivity|].
    inversion HS; subst.
    destruct (plain_cases x H1) as [[R E]|[R E]]; rewrite (real_not_timeout _ R), E; cbn [es ek].
    + reflexivity.
    + destruct (mem_key (ek x) up); [|reflexivity]. apply IHs; auto.
  - cbn [ev0 es kstate_eqb]. apply IH; auto.
Qed.

Lemma wfx_ups ks : forall seen, Forall real_key ks -> NoDup (seen ++ ks) ->
  wfx seen (map (fun k => ev0 k UpAsync) ks).
Proof.
  induction ks as [|k ks IH]; intros seen HR HN; cbn; auto.
  inversion HR; subst. left. split; auto. split; auto. split.
  - apply NoDup_remove_2 in HN. intros H. apply HN. apply in_or_app; auto.
  - apply IH; auto. rewrite <- app_assoc. exact HN.
Qed.

Section Group.
Variable ks : list key.
Hypothesis HR : Forall real_key ks.
Hypothesis HN : NoDup ks.

Lemma group_loop fuel : forall todo P pressed sq e d,
  incl todo ks -> NoDup todo ->
  (forall k, In k pressed <-> (In k ks /\ ~ In k todo) \/ In k P) ->
  incl P ks ->
  plain sq -> fresh pressed sq ->
  (length todo + length ks + length sq <= fuel)%nat ->
  match_loop fuel (map (fun k => ev0 k Down) todo ++ map (fun k => ev0 k UpAsync) ks) sq
             (mk (gasync todo P) e d)
  = Some (gref ks pressed sq, [], None).
Proof.
  induction fuel as [|fuel IH]; intros todo P pressed sq e d HT HNT HP HPK HS HF Hf.
  - assert (todo = [] /\ ks = [] /\ sq = []) as (-> & Hk & ->).
    { destruct todo, ks, sq; cbn in Hf; try lia. auto. }
    rewrite Hk. reflexivity.
  - destruct todo as [|k todo].
    { cbn [map app gasync].
      assert (HA : forallb (fun k => mem_key k pressed) ks = true).
      { apply forallb_forall. intros k Hk. apply mem_key_In. apply HP. left. auto. }
      assert (HG : gref ks pressed sq = gtail ks sq).
      { destruct sq; cbn [gref]; rewrite HA; reflexivity. }
      rewrite HG. unfold gtail.
      rewrite (loop_follows_ref (S fuel)); [| |split; constructor| |].
      - unfold full, upkeys. cbn [map filter]. rewrite (ref_up_d ks [] d true) by auto.
        rewrite ref_up_snd by auto. reflexivity.
      - apply wfx_ups; auto.
      - eapply Forall_impl; [|exact HS]. intros x Hx. left; auto.
      - rewrite map_length. cbn in Hf. lia. }
    inversion HNT; subst.
    assert (Hk : real_key k).
    { rewrite Forall_forall in HR. apply HR, HT. left; auto. }
    assert (HRT : Forall real_key todo).
    { apply Forall_forall. intros j Hj. rewrite Forall_forall in HR. apply HR, HT. right; auto. }
    cbn [map app]. rewrite match_loop_cons. cbn [tl_if tl].
    assert (HK : In k ks) by (apply HT; left; auto).
    assert (NOTALL : ~ In k P -> forallb (fun k => mem_key k pressed) ks = false).
    { intros HnP. destruct (forallb _ ks) eqn:E; auto. rewrite forallb_forall in E.
      specialize (E k HK). apply mem_key_In in E. apply HP in E.
      destruct E as [[_ E]|E]; [|contradiction]. exfalso. apply E. left; auto. }
    (* removing an already pressed key from the expression *)
    assert (SKIP : In k P -> match_loop fuel
               (map (fun k => ev0 k Down) todo ++ map (fun k => ev0 k UpAsync) ks) sq
               (mk (gasync todo P) (S e) d) = Some (gref ks pressed sq, [], None)).
    { intros HkP. apply IH; auto.
      - intros j Hj. apply HT. right; auto.
      - intros j. rewrite HP. split; [intros [[A B]|A]; [|auto]|].
        + left. split; auto. intros Hj. apply B. right; auto.
        + intros [[A B]|A]; [|auto].
          destruct (N.eq_dec j k) as [->|Hne]; [right; auto|].
          left. split; auto. intros [->|Hj]; auto.
      - cbn in Hf. lia. }
    destruct sq as [|x sq]; cbn [hd].
    { rewrite gstep_other; auto; [|apply unif_event_none_l].
      cbn [matches_none es ek]. rewrite find_index_false by (intros; apply andb_false_r).
      destruct (mem_key k P) eqn:M.
      - apply mem_key_In in M. apply SKIP. auto.
      - apply mem_key_false in M. cbn [gref]. rewrite NOTALL by auto. reflexivity. }
    inversion HS as [|? ? Hx HS']; subst.
    destruct (plain_cases x Hx) as [[R E]|[R E]].
    + (* a press *)
      destruct x as [j s v]; cbn [ek es ev] in *; injection E as ->.
      cbn [fresh es ek] in HF. destruct HF as [HFj HF].
      destruct (N.eqb_spec j k) as [->|Hne].
      * (* the expected one *)
        rewrite gstep_direct; auto. cbn [tl_if tl].
        assert (HnP : ~ In k P).
        { intros HI. apply HFj. apply HP. right; auto. }
        cbn [gref]. rewrite NOTALL by auto. cbn [es ek].
        assert (M1 : mem_key k ks = true) by (apply mem_key_In; auto).
        assert (M2 : mem_key k pressed = false) by (apply mem_key_false; auto).
        rewrite M1, M2. cbn [andb negb].
        apply IH; auto.
        -- intros y Hy. apply HT. right; auto.
        -- intros y. cbn. rewrite HP. split.
           ++ intros [<-|[[A B]|A]]; auto. left. split; auto. intros Hy. apply B. right; auto.
           ++ intros [[A B]|A]; [|auto].
              destruct (N.eq_dec y k) as [->|Hyk]; [left; auto|].
              right. left. split; auto. intros [->|Hy]; auto.
        -- cbn in Hf |- *. lia.
      * assert (HU : unif_event (Ev j Down v) (ev0 k Down) = false).
        { unfold unif_event. cbn [ev0 ek es].
          rewrite (real_not_any _ R), (real_not_any _ Hk), (unif_key_real _ _ R Hk). cbn [andb].
          destruct (N.eqb_spec j k); [contradiction|reflexivity]. }
        rewrite gstep_other; auto.
        cbn [es ek].
        pose proof (gasync_find_down (k :: todo) P j) as FD.
        destruct (find_index _ _) as [i|].
        -- destruct FD as (D1 & D2 & D3); auto. rewrite D3. cbn [tl_if tl].
           destruct D1 as [D1|D1]; [congruence|].
           assert (HJK : In j ks) by (apply HT; right; auto).
           cbn [gref].
           assert (NA : forallb (fun k0 => mem_key k0 pressed) ks = false).
           { destruct (forallb _ ks) eqn:EE; auto. rewrite forallb_forall in EE.
             specialize (EE j HJK). apply mem_key_In in EE. contradiction. }
           rewrite NA. cbn [es ek].
           assert (M1 : mem_key j ks = true) by (apply mem_key_In; auto).
           assert (M2 : mem_key j pressed = false) by (apply mem_key_false; auto).
           rewrite M1, M2. cbn [andb negb].
           change (ev0 k Down :: map (fun k0 => ev0 k0 Down) todo ++ map (fun k0 => ev0 k0 UpAsync) ks)
             with (map (fun k0 => ev0 k0 Down) (k :: todo) ++ map (fun k0 => ev0 k0 UpAsync) ks).
           apply IH; auto.
           ++ intros y. cbn. rewrite HP. cbn. split; [intros [<-|[A|A]]; auto|intros [A|[<-|A]]; auto].
           ++ intros y [<-|Hy]; auto.
           ++ cbn in Hf |- *. lia.
        -- destruct (mem_key k P) eqn:M.
           { apply mem_key_In in M. cbn [tl_if tl]. apply SKIP. auto. }
           apply mem_key_false in M. cbn [gref]. rewrite NOTALL by auto. cbn [es ek].
           assert (HnK : mem_key j ks && negb (mem_key j pressed) = false).
           { destruct (mem_key j ks) eqn:MJ; [|reflexivity]. apply mem_key_In in MJ.
             exfalso. assert (~ (In j (k :: todo) /\ ~ In j P)) as FD' by (apply FD; auto).
             apply HFj. apply HP.
             destruct (in_dec N.eq_dec j (k :: todo)) as [Hin|Hin]; [|left; auto].
             right. destruct (in_dec N.eq_dec j P); auto. exfalso. apply FD'. auto. }
           rewrite HnK. reflexivity.
    + (* a release *)
      assert (HU : unif_event x (ev0 k Down) = false).
      { rewrite E. unfold unif_event. cbn [ev0 ek es].
        rewrite (real_not_any _ R), (real_not_any _ Hk), (unif_key_real _ _ R Hk). cbn [andb].
        destruct (ek x =? k); [|reflexivity]. cbn [negb]. rewrite (real_not_timeout _ R). reflexivity. }
      rewrite gstep_other; auto.
      assert (EU : es x = Up) by (rewrite E; reflexivity). rewrite EU.
      rewrite (find_index_none_ex _ (gasync (k :: todo) P)).
      2:{ intros y Hy. apply gasync_es in Hy. destruct Hy as [-> | ->]; reflexivity. }
      destruct (mem_key k P) eqn:M.
      * apply mem_key_In in M. apply SKIP. auto.
      * apply mem_key_false in M. cbn [gref]. rewrite NOTALL by auto. rewrite EU. reflexivity.
Qed.
End Group.

(** Reading of the reference function. *)

Lemma rel_ok_ups ks sq :
  presses sq = [] ->
  rel_ok (map (fun k => ev0 k UpAsync) ks) [] sq <-> NoDup (releases sq) /\ incl (releases sq) ks.
Proof.
  intros HP. unfold rel_ok, may_release. split.
  - intros H.
    assert (G : forall l r, sq = l ++ r -> NoDup (releases l) /\ incl (releases l) ks).
    { intros l. induction l as [|x l IH] using rev_ind; intros r E.
      - split; [constructor|intros y []].
      - rewrite <- app_assoc in E. destruct (IH _ E) as [I1 I2].
        destruct x as [k s v]. unfold releases. rewrite filter_app, map_app.
        destruct s; cbn; rewrite ?app_nil_r; auto.
        destruct (H l k v r E) as [N M]. split.
        + apply (Permutation_NoDup (l := k :: releases l)).
          * apply Permutation_cons_append.
          * constructor; auto.
        + apply incl_app; auto. intros y [<-|[]].
          destruct M as [[]|(e1 & e & e2 & M & K & _)].
          assert (HI : In e (map (fun k => ev0 k UpAsync) ks)) by (rewrite M; apply in_or_app; right; left; auto).
          apply in_map_iff in HI. destruct HI as (j & <- & HJ). cbn in K. subst. auto. }
    apply (G sq []). rewrite app_nil_r. reflexivity.
  - intros [H1 H2] l k v r E. subst sq.
    assert (HI : In k (releases (l ++ Ev k Up v :: r))).
    { unfold releases. rewrite filter_app, map_app. apply in_or_app. right. left. reflexivity. }
    split.
    + unfold releases in H1. rewrite filter_app, map_app in H1. cbn in H1.
      apply NoDup_remove_2 in H1. intros HH. apply H1. apply in_or_app; auto.
    + right. apply H2 in HI. apply in_split in HI. destruct HI as (k1 & k2 & ->).
      exists (map (fun k => ev0 k UpAsync) k1), (ev0 k UpAsync), (map (fun k => ev0 k UpAsync) k2).
      rewrite map_app. repeat split.
      assert (EP : presses (map (fun k => ev0 k UpAsync) k1) = []).
      { clear. induction k1; cbn; auto. }
      rewrite EP. cbn. lia.
Qed.

Lemma presses_ups ks : presses (map (fun k => ev0 k UpAsync) ks) = [].
Proof. induction ks; cbn; auto. Qed.

Lemma wfp_ups ks : forall seen, Forall real_key ks -> NoDup (seen ++ ks) ->
  wfp seen (map (fun k => ev0 k UpAsync) ks).
Proof.
  induction ks as [|k ks IH]; intros seen HR HN; cbn; auto.
  inversion HR; subst. split; auto.
  pose proof (NoDup_remove_2 _ _ _ HN) as H. pose proof (NoDup_remove_1 _ _ _ HN) as H1'.
  split; [intros HI; apply H; apply in_or_app; auto|].
  left. split; auto. split.
  - intros HI. apply H. apply in_or_app. right.
    clear - HI. unfold asyncs in HI. apply in_map_iff in HI. destruct HI as (x & <- & HI).
    apply filter_In in HI. destruct HI as [HI _]. apply in_map_iff in HI.
    destruct HI as (j & <- & HJ). exact HJ.
  - apply IH; auto. rewrite <- app_assoc. exact HN.
Qed.

Lemma gtail_spec ks sq :
  Forall real_key ks -> NoDup ks -> plain sq ->
  (gtail ks sq = Matched <-> presses sq = [] /\ NoDup (releases sq) /\ incl (releases sq) ks) /\
  gtail ks sq <> MightMatch.
Proof.
  intros HR HN HS. unfold gtail.
  destruct (ref_spec (map (fun k => ev0 k UpAsync) ks) [] true sq) as [S1 S2]; auto.
  { apply wfp_ups; auto. }
  unfold matched_spec, might_spec in *. rewrite presses_ups in *. split.
  - rewrite S1. split; intros [P Q]; split; auto; apply rel_ok_ups; auto.
  - intros HM. apply S2 in HM. destruct HM as [(k & more & H) _].
    destruct (presses sq); discriminate.
Qed.

Lemma nodup_incl_perm (p : list key) : forall ks,
  NoDup p -> incl p ks -> NoDup ks -> exists rest, Permutation (p ++ rest) ks.
Proof.
  induction p as [|x p IH]; intros ks HP HI HK; [exists ks; reflexivity|].
  inversion HP; subst.
  assert (Hx : In x ks) by (apply HI; left; auto).
  apply in_split in Hx. destruct Hx as (a & b & ->).
  destruct (IH (a ++ b)) as [rest R]; auto.
  - intros y Hy. assert (In y (a ++ x :: b)) by (apply HI; right; auto).
    apply in_app_or in H. apply in_or_app. destruct H as [H|[->|H]]; auto. contradiction.
  - eapply NoDup_remove_1; eauto.
  - exists rest. cbn. rewrite R. apply Permutation_middle.
Qed.

Lemma plain_empty l : plain l -> releases l = [] -> presses l = [] -> l = [].
Proof.
  destruct l as [|x l]; auto. intros H R P. inversion H; subst.
  destruct (plain_cases x H2) as [[_ E]|[_ E]]; rewrite E in *; discriminate.
Qed.

Lemma gref_spec ks sq : forall pressed,
  Forall real_key ks -> NoDup ks -> NoDup pressed -> incl pressed ks -> plain sq ->
  (gref ks pressed sq = Matched <->
     exists l r, sq = l ++ r /\ releases l = [] /\ presses r = [] /\
       Permutation (pressed ++ presses l) ks /\ NoDup (releases r) /\ incl (releases r) ks) /\
  (gref ks pressed sq = MightMatch <->
     releases sq = [] /\ exists k more, Permutation ((pressed ++ presses sq) ++ k :: more) ks).
Proof.
  intros pressed HR HN. revert pressed.
  induction sq as [|x sq IH]; intros pressed HNP HI HS.
  - cbn [gref]. destruct (nodup_incl_perm pressed ks) as [rest R]; auto.
    destruct (forallb (fun k => mem_key k pressed) ks) eqn:A.
    + assert (HP : Permutation pressed ks).
      { apply NoDup_Permutation; auto. intros k. split; auto. intros Hk.
        rewrite forallb_forall in A. apply mem_key_In. auto. }
      destruct (gtail_spec ks [] HR HN HS) as [T1 T2]. rewrite T1. split.
      * split; intros _.
        -- exists [], []. repeat split; auto; try constructor; try (intros y []).
           rewrite app_nil_r. auto.
        -- repeat split; try constructor. intros y [].
      * split; [intros H; contradiction|]. intros [_ (k & more & P)]. exfalso.
        cbn in P. rewrite app_nil_r in P.
        apply Permutation_length in P, HP. rewrite app_length in P. cbn in P. lia.
    + split; split; try discriminate; auto.
      * intros (l & r & E & _ & _ & P & _). destruct l; [|discriminate].
        cbn in P. rewrite app_nil_r in P. exfalso.
        assert (forallb (fun k => mem_key k pressed) ks = true).
        { apply forallb_forall. intros k Hk. apply mem_key_In.
          eapply Permutation_in; [symmetry; exact P|auto]. }
        congruence.
      * intros _. split; auto. destruct rest as [|k more].
        { exfalso. rewrite app_nil_r in R.
          assert (forallb (fun k => mem_key k pressed) ks = true).
          { apply forallb_forall. intros k Hk. apply mem_key_In.
            eapply Permutation_in; [symmetry; exact R|auto]. }
          congruence. }
        exists k, more. cbn. rewrite app_nil_r. exact R.
  - cbn [gref].
    destruct (forallb (fun k => mem_key k pressed) ks) eqn:A.
    + assert (HP : Permutation pressed ks).
      { apply NoDup_Permutation; auto. intros k. split; auto. intros Hk.
        rewrite forallb_forall in A. apply mem_key_In. auto. }
      destruct (gtail_spec ks (x :: sq) HR HN HS) as [T1 T2]. rewrite T1. split.
      * split.
        -- intros (P & N & I). exists [], (x :: sq). repeat split; auto.
           cbn. rewrite app_nil_r. auto.
        -- intros (l & r & E & R & P & PP & N & I).
           assert (l = []).
           { apply plain_empty; auto.
             - rewrite E in HS. apply Forall_app in HS. tauto.
             - apply Permutation_length in PP, HP. rewrite app_length in PP.
               destruct (presses l); auto. cbn in PP. lia. }
           subst l. cbn in E. rewrite E. auto.
      * split; [intros H; contradiction|]. intros [_ (k & more & P)]. exfalso.
        apply Permutation_length in P, HP. rewrite !app_length in P. cbn in P. lia.
    + assert (NP : ~ Permutation pressed ks).
      { intros P. assert (forallb (fun k => mem_key k pressed) ks = true); [|congruence].
        apply forallb_forall. intros k Hk. apply mem_key_In.
        eapply Permutation_in; [symmetry; exact P|auto]. }
      inversion HS as [|? ? Hx HS']; subst.
      destruct (plain_cases x Hx) as [[R E]|[R E]]; destruct x as [j s v]; cbn [ek es ev] in *;
        injection E as ->.
      * rewrite presses_cons_down, releases_cons_down.
        destruct (mem_key j ks && negb (mem_key j pressed)) eqn:M.
        -- apply andb_prop in M. destruct M as [M1 M2]. apply mem_key_In in M1.
           apply negb_true_iff, mem_key_false in M2.
           destruct (IH (j :: pressed)) as [I1 I2]; auto.
           { constructor; auto. }
           { intros y [<-|Hy]; auto. }
           rewrite I1, I2. split.
           ++ split.
              ** intros (l & r & -> & HL & HP & PP & N & I).
                 exists (Ev j Down v :: l), r. repeat split; auto.
                 rewrite presses_cons_down. rewrite <- PP. cbn. symmetry. apply Permutation_middle.
              ** intros (l & r & E & HL & HP & PP & N & I).
                 destruct l as [|y l].
                 { exfalso. cbn in E. subst r. discriminate. }
                 cbn in E. injection E as <- E. exists l, r. repeat split; auto.
                 rewrite presses_cons_down in PP. rewrite <- PP. cbn. apply Permutation_middle.
           ++ split; intros [HL (k & more & PP)]; split; auto; exists k, more; rewrite <- PP;
                apply Permutation_app_tail; cbn; [symmetry|]; apply Permutation_middle.
        -- split; split; try discriminate.
           ++ intros (l & r & E & HL & HP & PP & N & I). exfalso.
              destruct l as [|y l]; [cbn in E; subst r; discriminate|].
              cbn in E. injection E as <- E. rewrite presses_cons_down in PP.
              assert (HJ : In j ks).
              { eapply Permutation_in; [exact PP|]. apply in_or_app. right. left; auto. }
              assert (HJN : ~ In j pressed).
              { apply (Permutation_NoDup (Permutation_sym PP)) in HN.
                apply NoDup_remove_2 in HN. intros HH. apply HN. apply in_or_app; auto. }
              apply mem_key_In in HJ. apply mem_key_false in HJN. rewrite HJ, HJN in M. discriminate.
           ++ intros [HL (k & more & PP)]. exfalso.
              assert (HJ : In j ks).
              { eapply Permutation_in; [exact PP|]. apply in_or_app. left.
                apply in_or_app. right. left; auto. }
              assert (HJN : ~ In j pressed).
              { apply (Permutation_NoDup (Permutation_sym PP)) in HN.
                apply NoDup_app_l in HN. apply NoDup_remove_2 in HN.
                intros HH. apply HN. apply in_or_app; auto. }
              apply mem_key_In in HJ. apply mem_key_false in HJN. rewrite HJ, HJN in M. discriminate.
      * split; split; try discriminate.
        -- intros (l & r & E & HL & HP & PP & N & I). exfalso.
           destruct l as [|y l].
           { cbn in PP. rewrite app_nil_r in PP. contradiction. }
           cbn in E. injection E as <- E. discriminate.
        -- intros [HL _]. discriminate.
Qed.

Lemma match_loop_push l : forall f rest sq a e d,
  match_loop (length l + f) (map (fun k => ev0 k DownAsync) l ++ rest) sq (mk a e d)
  = match_loop f rest sq (mk (a ++ map (fun k => ev0 k DownAsync) l) (length l + e) d).
Proof.
  induction l as [|k l IH]; intros f rest sq a e d; cbn [length map app Nat.add].
  - rewrite app_nil_r. reflexivity.
  - rewrite match_loop_cons.
    assert (S : forall se b, match_step (ev0 k DownAsync) se b (mk a e d)
                             = MGo true false (mk (a ++ [ev0 k DownAsync]) (S e) d)).
    { intros se b. unfold match_step, mk.
      cbn [ms_not ms_async ms_any ms_nmm ms_e ms_down ms_ign ev0 es ek mem_key existsb kstate_eqb orb].
      rewrite andb_false_r. reflexivity. }
    rewrite S. cbn [tl_if tl]. rewrite IH. rewrite <- app_assoc. cbn [app].
    f_equal. unfold mk. f_equal. lia.
Qed.

Lemma alternating_fresh sq : forall pre p,
  alternating (pre ++ sq) -> releases pre = [] -> (forall k, In k p <-> In k (presses pre)) -> fresh p sq.
Proof.
  induction sq as [|x sq IH]; intros pre p HA HR HP; cbn; auto.
  destruct x as [j s v]. cbn [es ek]. destruct s; auto.
  specialize (HA pre j v sq) as HB. specialize (HB eq_refl). rewrite HR in HB. cbn in HB.
  split.
  - rewrite HP. intros HI. apply length_zero_iff_nil in HB.
    assert (In j (filter (N.eqb j) (presses pre))) by (apply filter_In; rewrite N.eqb_refl; auto).
    rewrite HB in H. destruct H.
  - apply (IH (pre ++ [Ev j Down v])).
    + rewrite <- app_assoc. exact HA.
    + unfold releases in *. rewrite filter_app, map_app, HR. reflexivity.
    + intros k. rewrite presses_app. cbn. rewrite HP, in_app_iff. cbn. tauto.
Qed.

Theorem match_group ks sq :
  NoDup ks -> Forall real_key ks -> plain sq -> alternating sq ->
  exists r, match_keys (gcompile ks) sq = Some (r, [], None) /\
    (r = Matched <-> gfulfils ks sq) /\ (r = MightMatch <-> gmight ks sq).
Proof.
  intros HN HR HS HA. exists (gref ks [] sq). split.
  - unfold match_keys, gcompile. rewrite !app_length, !map_length.
    change ms_init with (mk [] 0 false).
    replace (length ks + (length ks + length ks) + length sq)%nat
      with (length ks + (length ks + length ks + length sq))%nat by lia.
    rewrite match_loop_push. cbn [app].
    change (map (fun k => ev0 k DownAsync) ks) with (gasync ks []).
    apply group_loop; auto.
    + apply incl_refl.
    + intros k. cbn. tauto.
    + intros k [].
    + apply (alternating_fresh sq [] []); auto. intros k; cbn; tauto.
  - destruct (gref_spec ks sq []) as [S1 S2]; auto; try constructor; try (intros y []).
    all: unfold gfulfils, gmight; cbn [app] in *; rewrite ?S1, ?S2; tauto.
Qed.
