(** The matcher on expressions of presses, asynchronous releases and timeouts. *)
From Coq Require Import List NArith Bool Lia Permutation.
From Verif Require Import Base Key Match MatchProofs MatchSpec.
Import ListNotations.
Local Open Scope N_scope.

(** * Reference semantics by structural recursion *)

(** Histories with timeouts: the server adds events for elapsed times. *)
Definition timed_event (e : event) : Prop :=
  plain_event e \/ (ek e = k_timeout /\ es e = Up).

(** What is done with the history while the expression waits for [wait]
    ([None]: its end).  [up]: keys which may be released, [d]: something was pressed
    already, [k]: how to go on when the expected event arrives. *)
Fixpoint waiting (wait : option event) (k : list key -> bool -> sequence -> mresult * option event)
         (up : list key) (d : bool) (sq : sequence) : mresult * option event :=
  match sq with
  | [] => match wait with
          | None => (Matched, None)
          | Some e => (MightMatch, if ek e =? k_timeout then Some e else None)
          end
  | x :: r =>
      if ek x =? k_timeout then
        match wait with
        | Some e =>
            if ek e =? k_timeout then
              if unif_timeout x e then k up d r else (NoMatch, None)
            else if d then waiting wait k up d r else (NoMatch, None)
        | None => if d then waiting wait k up d r else (NoMatch, None)
        end
      else match es x with
      | Up => if mem_key (ek x) up then waiting wait k (remove_key (ek x) up) d r
              else (NoMatch, None)
      | _ => match wait with
             | Some e => if ek x =? ek e then k (remove_key (ek x) up) true r else (NoMatch, None)
             | None => (NoMatch, None)
             end
      end
  end.

Fixpoint ref (ex : sequence) (up : list key) (d : bool) (sq : sequence)
  : mresult * option event :=
  match ex with
  | [] => waiting None (fun _ _ _ => (NoMatch, None)) up d sq
  | e :: ex' =>
      if kstate_eqb (es e) UpAsync then ref ex' (up ++ [ek e]) d sq
      else waiting (Some e) (ref ex') up d sq
  end.

(** Expressions of presses, asynchronous releases (at most one per press) and
    timeouts. *)
Fixpoint wfx (seen : list key) (ex : sequence) : Prop :=
  match ex with
  | [] => True
  | e :: r =>
      (es e = UpAsync /\ real_key (ek e) /\ ~ In (ek e) seen /\ wfx (seen ++ [ek e]) r)
      \/ (es e = Down /\ real_key (ek e) /\ wfx (remove_key (ek e) seen) r)
      \/ (ek e = k_timeout /\ (es e = Up \/ es e = Down \/ is_not_timeout (es e) = true)
          /\ wfx seen r)
  end.

(** * The matcher follows the reference semantics *)

Definition mk (a : list event) (e : nat) (d : bool) : mstate := MS a [] [] [] false e d.

Definition async_ok (a : list event) : Prop :=
  Forall (fun x => real_key (ek x) /\ (es x = UpAsync \/ es x = Up)) a /\ NoDup (map ek a).

Definition upkeys (a : list event) : list key :=
  map ek (filter (fun x => kstate_eqb (es x) UpAsync) a).

Lemma unif_key_real k j : real_key k -> real_key j -> unif_key k j = (k =? j).
Proof.
  intros (H1 & H2 & H3) (J1 & J2 & J3). unfold unif_key.
  apply N.eqb_neq in H1, H2, H3, J1, J2, J3. rewrite H1, H2, H3, J1, J2, J3. cbn.
  destruct (k =? j); reflexivity.
Qed.

Lemma unif_key_real_timeout k : real_key k -> unif_key k k_timeout = false.
Proof.
  intros (H1 & H2 & H3). unfold unif_key.
  apply N.eqb_neq in H1, H2, H3. rewrite H1, H2, H3. reflexivity.
Qed.

Lemma unif_key_timeout_real k : real_key k -> unif_key k_timeout k = false.
Proof.
  intros (H1 & H2 & H3). unfold unif_key.
  apply N.eqb_neq in H1, H3. rewrite N.eqb_sym in H3. rewrite H1, H3. reflexivity.
Qed.

Lemma find_index_none_ex {A} (f : A -> bool) l :
  (forall x, In x l -> f x = false) -> find_index f l = None.
Proof.
  induction l as [|x l IH]; intros H; cbn; [reflexivity|].
  rewrite H by (left; reflexivity). rewrite IH; [reflexivity|].
  intros y Hy. apply H. right; auto.
Qed.

Lemma unmatched_pair_none k p a :
  (forall x, In x a -> es x <> DownAsync) -> unmatched_async_pair k p a = false.
Proof.
  revert p. induction a as [|x a IH]; intros p H; cbn; [reflexivity|].
  destruct (event_eqb_spec x (ev0 k DownAsync)) as [E|_].
  - exfalso. apply (H x); [left; reflexivity|]. rewrite E. reflexivity.
  - apply IH. intros y Hy. apply H; right; auto.
Qed.

Lemma remove_key_notin k l : ~ In k l -> remove_key k l = l.
Proof.
  unfold remove_key. induction l as [|x l IH]; intros H; cbn; [reflexivity|].
  destruct (N.eqb_spec x k) as [->|]; cbn.
  - exfalso. apply H. left; reflexivity.
  - f_equal. apply IH. intros Hi. apply H. right; exact Hi.
Qed.

Lemma remove_key_In k l x : In x (remove_key k l) <-> In x l /\ x <> k.
Proof.
  unfold remove_key. rewrite filter_In. split; intros [H1 H2]; split; auto.
  - destruct (N.eqb_spec x k); [discriminate|auto].
  - destruct (N.eqb_spec x k); [contradiction|reflexivity].
Qed.

Lemma mem_key_false k l : mem_key k l = false <-> ~ In k l.
Proof. rewrite <- mem_key_In. destruct (mem_key k l); split; congruence. Qed.

(** Marking the pending release of a key. *)
Lemma mark_up k a :
  real_key k -> async_ok a ->
  match find_index (fun x => kstate_eqb (es x) UpAsync && unif_key k (ek x)) a with
  | Some i => mem_key k (upkeys a) = true /\
              async_ok (update_at i (set_es Up) a) /\
              upkeys (update_at i (set_es Up) a) = remove_key k (upkeys a) /\
              map ek (update_at i (set_es Up) a) = map ek a
  | None => mem_key k (upkeys a) = false
  end.
Proof.
  intros Hk. induction a as [|x a IH]; intros [HF HN]; cbn [find_index]; [reflexivity|].
  inversion HF as [|? ? [Hx Hs] HF']; subst. inversion HN as [|? ? Hn HN']; subst.
  rewrite (unif_key_real k (ek x)) by auto.
  unfold upkeys; cbn [filter].
  specialize (IH (conj HF' HN')).
  assert (Hup : ~ In (ek x) (upkeys a)).
  { unfold upkeys. intros H. apply Hn. apply in_map_iff in H. destruct H as (y & E & Hy).
    apply filter_In in Hy. rewrite <- E. apply in_map. tauto. }
  destruct (N.eqb_spec k (ek x)) as [->|Hne]; [rewrite andb_true_r|rewrite andb_false_r].
  - destruct (kstate_eqb_spec (es x) UpAsync) as [E|E].
    + cbn [map mem_key existsb update_at]. rewrite N.eqb_refl. cbn. split; [reflexivity|].
      split; [split; constructor; cbn; auto|]. split; [|reflexivity].
      rewrite N.eqb_refl. cbn. symmetry. apply remove_key_notin. exact Hup.
    + assert (HB : mem_key (ek x) (upkeys a) = false) by (apply mem_key_false; auto).
      destruct (find_index _ a) as [i|].
      * destruct IH as (M & _). congruence.
      * exact HB.
  - assert (Hm : forall b, mem_key k (map ek (if b : bool then x :: filter (fun x => kstate_eqb (es x) UpAsync) a
                            else filter (fun x => kstate_eqb (es x) UpAsync) a))
                 = mem_key k (upkeys a)).
    { intros []; cbn; [|reflexivity]. apply N.eqb_neq in Hne. rewrite Hne. reflexivity. }
    destruct (find_index _ a) as [i|].
    + destruct IH as (M & (O1 & O2) & U & K). rewrite Hm. split; [exact M|].
      cbn [update_at map]. split; [|split].
      * split; constructor; [split; auto|exact O1|intros HI; apply Hn; rewrite <- K; exact HI|exact O2].
      * cbn [filter]. destruct (kstate_eqb (es x) UpAsync); cbn [map].
        -- unfold upkeys in U. rewrite U. cbn. apply N.eqb_neq in Hne.
           rewrite N.eqb_sym, Hne. reflexivity.
        -- exact U.
      * f_equal. exact K.
    + rewrite Hm. exact IH.
Qed.

Lemma async_filter k a :
  async_ok a ->
  async_ok (filter (fun x => negb (k =? ek x)) a) /\
  upkeys (filter (fun x => negb (k =? ek x)) a) = remove_key k (upkeys a) /\
  map ek (filter (fun x => negb (k =? ek x)) a) = remove_key k (map ek a).
Proof.
  intros [HF HN]. induction a as [|x a IH]; cbn.
  { split; [split; constructor|split; reflexivity]. }
  inversion HF as [|? ? Hx HF']; subst. inversion HN as [|? ? Hn HN']; subst.
  destruct (IH HF' HN') as ((O1 & O2) & U & K). unfold upkeys in *. cbn [filter].
  rewrite (N.eqb_sym (ek x) k).
  destruct (N.eqb_spec k (ek x)) as [->|Hne]; cbn [negb].
  - split; [split; auto|]. split; [|exact K].
    destruct (kstate_eqb (es x) UpAsync); cbn; rewrite ?N.eqb_refl; cbn; exact U.
  - split; [split; constructor; auto|].
    + intros HI. apply Hn.
      change (In (ek x) (map ek (filter (fun x : event => negb (k =? ek x)) a))) in HI.
      rewrite K in HI. apply remove_key_In in HI. tauto.
    + split; [|cbn; f_equal; exact K].
      cbn [filter]. destruct (kstate_eqb (es x) UpAsync); cbn; [|exact U].
      apply N.eqb_neq in Hne. rewrite N.eqb_sym, Hne. cbn. f_equal. exact U.
Qed.

Lemma real_not_none k : real_key k -> (k =? k_none) = false.
Proof. intros (H & _). apply N.eqb_neq; auto. Qed.
Lemma real_not_any k : real_key k -> (k =? k_any) = false.
Proof. intros (_ & H & _). apply N.eqb_neq; auto. Qed.
Lemma real_not_timeout k : real_key k -> (k =? k_timeout) = false.
Proof. intros (_ & _ & H). apply N.eqb_neq; auto. Qed.

Lemma not_matches_none x : ek x <> k_none -> event_eqb x matches_none = false.
Proof. intros H. destruct (event_eqb_spec x matches_none) as [->|]; auto. cbn in H. congruence. Qed.

(** Every step but those for the head of the expression being a press, an
    asynchronous release, a timeout or the end. *)
Definition head_ok (e : event) : Prop :=
  (es e = Down /\ real_key (ek e))
  \/ (ek e = k_timeout /\ (es e = Up \/ es e = Down \/ is_not_timeout (es e) = true))
  \/ e = matches_none.

Lemma step_async ee se b a e d :
  es ee = UpAsync ->
  match_step ee se b (mk a e d) = MGo true false (mk (a ++ [ee]) (S e) d).
Proof.
  intros He. unfold match_step. rewrite He. cbn [kstate_eqb orb ms_not mk mem_key existsb].
  rewrite andb_false_r. reflexivity.
Qed.

(** The steps up to the search for a pending release. *)
Lemma step_skip ee se b a e d :
  head_ok ee -> async_ok a ->
  (ek se <> k_any) ->
  unif_event se ee = false ->
  (ek ee =? k_timeout) && event_eqb se matches_none = false ->
  match_step ee se b (mk a e d) =
  match find_index (fun x => kstate_eqb (es x) (match es se with Up => UpAsync | _ => DownAsync end)
                             && unif_key (ek se) (ek x)) a with
  | Some i =>
      MGo false true (mk (update_at i (set_es (es se)) a) e (d || (negb b && kstate_eqb (es se) Down)))
  | None =>
      if kstate_eqb (es se) DownMatched || kstate_eqb (es se) UpMatched
      then MGo false true (mk a e (d || (negb b && kstate_eqb (es se) Down)))
      else if (ek se =? k_timeout) && negb (ek ee =? k_timeout) && d
      then MGo false true (mk a e (d || (negb b && kstate_eqb (es se) Down)))
      else MRet (if b then MightMatch else NoMatch) None
  end.
Proof.
  intros Hh [HF HN] Hany Hu Ht. unfold match_step, mk. cbn [ms_not ms_async ms_any ms_nmm ms_e ms_down ms_ign].
  assert (Hnot : match es ee with Down => remove_key (ek ee) [] | _ => [] end = [])
    by (destruct (es ee); reflexivity).
  rewrite Hnot. cbn [mem_key existsb ms_not ms_async ms_any ms_nmm ms_e ms_down ms_ign].
  rewrite andb_false_r.
  assert (H1 : kstate_eqb (es ee) DownAsync || kstate_eqb (es ee) UpAsync = false).
  { destruct Hh as [[-> _]|[[_ [->|[->|H]]]| ->]]; try reflexivity.
    destruct (es ee); try discriminate; reflexivity. }
  assert (H2 : kstate_eqb (es ee) Not && negb (ek ee =? k_timeout) = false).
  { destruct Hh as [[-> _]|[[-> _]| ->]]; try reflexivity.
    rewrite N.eqb_refl, andb_false_r. reflexivity. }
  assert (H3 : (ek ee =? k_any) = false).
  { destruct Hh as [[_ R]|[[-> _]| ->]]; try reflexivity. apply real_not_any; auto. }
  assert (H4 : kstate_eqb (es ee) NoMightMatch = false).
  { destruct Hh as [[-> _]|[[_ [->|[->|H]]]| ->]]; try reflexivity.
    destruct (es ee); try discriminate; reflexivity. }
  rewrite H1, H2, H3, H4, Hu, Ht. cbn [andb].
  destruct (find_index _ a) as [i|]; [reflexivity|].
  destruct (kstate_eqb (es se) DownMatched || kstate_eqb (es se) UpMatched); [reflexivity|].
  rewrite (find_index_none_ex (fun x => unif_event ee x) a).
  2:{ intros x Hx. rewrite Forall_forall in HF. destruct (HF x Hx) as [R S].
      unfold unif_event. rewrite H3, (real_not_any (ek x)) by auto. cbn [andb].
      destruct Hh as [[E R']|[[E _]| ->]].
      - rewrite unif_key_real by auto. destruct (ek ee =? ek x); cbn [negb]; [|reflexivity].
        rewrite (real_not_timeout (ek ee)) by auto. rewrite E.
        destruct S as [-> | ->]; reflexivity.
      - rewrite E, unif_key_timeout_real by auto. reflexivity.
      - reflexivity. }
  rewrite unmatched_pair_none.
  2:{ intros x Hx. rewrite Forall_forall in HF. destruct (HF x Hx) as [_ [-> | ->]]; discriminate. }
  rewrite andb_false_r. reflexivity.
Qed.

Lemma find_downasync_none a k (b : bool) :
  async_ok a ->
  find_index (fun x => kstate_eqb (es x) DownAsync && unif_key k (ek x)) a = None.
Proof.
  intros [HF _]. apply find_index_none_ex. intros x Hx. rewrite Forall_forall in HF.
  destruct (HF x Hx) as [_ [-> | ->]]; reflexivity.
Qed.

Lemma find_timeout_none a (s : kstate) :
  async_ok a ->
  find_index (fun x => kstate_eqb (es x) s && unif_key k_timeout (ek x)) a = None.
Proof.
  intros [HF _]. apply find_index_none_ex. intros x Hx. rewrite Forall_forall in HF.
  destruct (HF x Hx) as [R _]. rewrite unif_key_timeout_real by auto. apply andb_false_r.
Qed.

Lemma timed_not_none x : timed_event x -> ek x <> k_none.
Proof. intros [[[H _] _]|[-> _]]; [exact H|discriminate]. Qed.
Lemma timed_not_any x : timed_event x -> ek x <> k_any.
Proof. intros [[[_ [H _]] _]|[-> _]]; [exact H|discriminate]. Qed.

Lemma match_loop_step f ex sq m :
  ex <> [] \/ sq <> [] ->
  match_loop (S f) ex sq m =
  match match_step (hd matches_none ex) (hd matches_none sq)
                   (match sq with [] => true | _ => false end) m with
  | MRet r t => Some (r, ms_any m, t)
  | MGo ae as_ m' => match_loop f (tl_if ae ex) (tl_if as_ sq) m'
  end.
Proof. intros [H|H]; destruct ex, sq; congruence || reflexivity. Qed.

Definition full (x : mresult * option event) : option mresult_full :=
  Some (fst x, [], snd x).

Lemma mk_eta a e d : ms_any (mk a e d) = [].
Proof. reflexivity. Qed.

(** One round while the head of the expression waits. *)
Lemma loop_follows_ref fuel : forall ex sq a e d,
  wfx (map ek a) ex -> async_ok a -> Forall timed_event sq ->
  (length ex + length sq <= fuel)%nat ->
  match_loop fuel ex sq (mk a e d) = full (ref ex (upkeys a) d sq).
Proof.
  induction fuel as [|fuel IH]; intros ex sq a e d Hw Ha Hs Hf.
  { destruct ex, sq; cbn in Hf; try lia. reflexivity. }
  assert (HD : (ex = [] /\ sq = []) \/ (ex <> [] \/ sq <> []))
      by (destruct ex, sq; auto; right; try (left; discriminate); right; discriminate).
  destruct HD as [[-> ->]|HD]; [reflexivity|].
  rewrite match_loop_step by exact HD.
  destruct ex as [|ee ex].
  - (* end of the expression *)
    destruct sq as [|x sq]; [destruct HD; congruence|]. cbn [hd].
    inversion Hs as [|? ? Hx Hs']; subst.
    rewrite step_skip; [| right; right; reflexivity | auto | apply timed_not_any; auto
      | apply unif_event_none_r | reflexivity].
    cbn [ref waiting].
    destruct Hx as [[R [E|E]]|[E E']].
    + rewrite E. rewrite (find_downasync_none a _ true) by auto.
      rewrite (real_not_timeout _ R). cbn. reflexivity.
    + rewrite E. rewrite (real_not_timeout _ R). cbn [kstate_eqb orb negb andb].
      pose proof (mark_up (ek x) a R Ha) as M.
      destruct (find_index _ a) as [i|].
      * destruct M as (-> & O & U & K). cbn [tl_if tl].
        rewrite orb_false_r. rewrite IH; [|rewrite K; exact I|exact O|exact Hs'|cbn in *; lia].
        rewrite U. reflexivity.
      * rewrite M. reflexivity.
    + rewrite E, E'. rewrite find_timeout_none by auto. rewrite N.eqb_refl.
      cbn [kstate_eqb orb negb andb]. rewrite orb_false_r.
      change (negb (ek matches_none =? k_timeout)) with true. cbn [andb].
      destruct d.
      * cbn [tl_if tl]. rewrite IH; [reflexivity|exact I|exact Ha|exact Hs'|cbn in *; lia].
      * reflexivity.
  - cbn [wfx] in Hw. cbn [hd].
    destruct Hw as [(E & R & Hn & Hw)|Hw].
    { (* asynchronous release *)
      rewrite step_async by exact E. cbn [tl_if tl].
      assert (U : upkeys (a ++ [ee]) = upkeys a ++ [ek ee]).
      { unfold upkeys. rewrite filter_app, map_app. cbn [filter]. rewrite E. reflexivity. }
      rewrite IH.
      - cbn [ref]. rewrite E. cbn [kstate_eqb]. rewrite U. reflexivity.
      - rewrite map_app. exact Hw.
      - destruct Ha as [HF HN]. split.
        + apply Forall_app; split; auto.
        + rewrite map_app. cbn. apply Permutation_NoDup with (l := ek ee :: map ek a).
          * apply Permutation_cons_append.
          * constructor; auto.
      - exact Hs.
      - cbn in *; lia. }
    assert (Hne : kstate_eqb (es ee) UpAsync = false).
    { destruct Hw as [[-> _]|(_ & [->|[->|H]] & _)]; try reflexivity.
      destruct (es ee); try discriminate; reflexivity. }
    cbn [ref]. rewrite Hne.
    assert (Hh : head_ok ee) by (unfold head_ok; tauto).
    assert (H3 : (ek ee =? k_any) = false).
    { destruct Hw as [(_ & R & _)|(-> & _)]; try reflexivity. apply real_not_any; auto. }
    destruct sq as [|x sq]; cbn [hd waiting].
    { (* end of the history *)
      destruct Hw as [(E & R & Hw)|(E & _ & Hw)].
      - rewrite step_skip; [| exact Hh | exact Ha | discriminate | apply unif_event_none_l
          | rewrite (real_not_timeout _ R); reflexivity].
        cbn [es ek matches_none]. rewrite (find_index_false _ a)
          by (intros; apply andb_false_r).
        cbn. rewrite (real_not_timeout _ R). reflexivity.
      - assert (S : match_step ee matches_none true (mk a e d) = MRet MightMatch (Some ee)).
        { unfold match_step, mk, matches_none. cbn [ms_not ms_async ms_any ms_nmm ms_e ms_down ms_ign].
          assert (Hnot : match es ee with Down => remove_key (ek ee) [] | _ => [] end = [])
            by (destruct (es ee); reflexivity).
          rewrite Hnot, E, N.eqb_refl, unif_event_none_l.
          destruct Hh as [[_ (? & ? & ?)]|[[_ [->|[->|H]]]|Hq]]; try congruence; try reflexivity.
          - destruct (es ee); try discriminate; reflexivity.
          - rewrite Hq in E. discriminate. }
        rewrite S, E, N.eqb_refl. reflexivity. }
    inversion Hs as [|? ? Hx Hs']; subst.
    assert (Hnn : event_eqb x matches_none = false) by (apply not_matches_none, timed_not_none; auto).
    destruct Hw as [(E & R & Hw)|(E & HE & Hw)].
    + (* waiting for a press *)
      rewrite (real_not_timeout _ R).
      destruct (unif_event x ee) eqn:HU.
      * (* direct match *)
        assert (HX : ek x = ek ee /\ es x = Down /\ real_key (ek x)).
        { unfold unif_event in HU.
          destruct Hx as [[Rx [Ex|Ex]]|[Ex Ex']].
          - rewrite H3, (real_not_any _ Rx), (unif_key_real _ _ Rx R) in HU. cbn [andb] in HU.
            destruct (N.eqb_spec (ek x) (ek ee)) as [Heq|]; [|discriminate]. auto.
          - exfalso. rewrite H3, (real_not_any _ Rx), (unif_key_real _ _ Rx R) in HU. cbn [andb] in HU.
            destruct (N.eqb_spec (ek x) (ek ee)) as [Heq|]; [|discriminate].
            cbn [negb] in HU. rewrite (real_not_timeout _ Rx), Ex, E in HU. discriminate.
          - exfalso. rewrite H3, Ex, (unif_key_timeout_real _ R) in HU. discriminate. }
        destruct HX as (Ek & Es & Rx).
        rewrite (real_not_timeout _ Rx), Es, Ek, N.eqb_refl.
        unfold match_step, mk. cbn [ms_not ms_async ms_any ms_nmm ms_e ms_down ms_ign]. rewrite E. cbn [remove_key filter mem_key existsb ms_not].
        rewrite andb_false_r. cbn [kstate_eqb orb andb]. rewrite H3, HU. cbn [andb ms_async ms_any ms_nmm ms_e ms_down ms_ign].
        cbn [tl_if tl]. rewrite Es. cbn [kstate_eqb negb andb]. rewrite orb_true_r.
        destruct (async_filter (ek x) a Ha) as (O & U & K). rewrite Ek in O, U, K. rewrite Ek.
        change (MS ?a [] [] [] false ?e ?d) with (mk a e d).
        rewrite IH; [|rewrite K; exact Hw|exact O|exact Hs'|cbn in *; lia].
        rewrite U. reflexivity.
      * rewrite step_skip; [|exact Hh|exact Ha|apply timed_not_any; auto|exact HU
           |rewrite (real_not_timeout _ R); reflexivity].
        rewrite (real_not_timeout _ R).
        destruct Hx as [[Rx [Ex|Ex]]|[Ex Ex']].
        -- rewrite Ex. rewrite (find_downasync_none a _ true) by auto.
           rewrite (real_not_timeout _ Rx). cbn.
           unfold unif_event in HU.
           rewrite H3, (real_not_any _ Rx), (unif_key_real _ _ Rx R) in HU. cbn [andb] in HU.
           destruct (N.eqb_spec (ek x) (ek ee)) as [Heq|]; [|reflexivity].
           cbn [negb] in HU. rewrite (real_not_timeout _ Rx), Ex, E in HU. discriminate.
        -- rewrite Ex. rewrite (real_not_timeout _ Rx). cbn [kstate_eqb orb negb andb].
           pose proof (mark_up (ek x) a Rx Ha) as M.
           destruct (find_index _ a) as [i|].
           ++ destruct M as (-> & O & U & K). cbn [tl_if tl]. rewrite orb_false_r.
              rewrite IH; [|rewrite K; right; left; auto|exact O|exact Hs'|cbn in *; lia].
              rewrite U. cbn [ref]. rewrite Hne. reflexivity.
           ++ rewrite M. reflexivity.
        -- rewrite Ex, Ex'. rewrite find_timeout_none by auto. rewrite N.eqb_refl.
           cbn [kstate_eqb orb negb andb]. rewrite orb_false_r.
           destruct d; [|reflexivity]. cbn [tl_if tl].
           rewrite IH; [|right; left; auto|exact Ha|exact Hs'|cbn in *; lia].
           cbn [ref]. rewrite Hne. reflexivity.
    + (* waiting for a timeout *)
      rewrite E, N.eqb_refl.
      destruct (unif_event x ee) eqn:HU.
      * assert (HX : ek x = k_timeout /\ es x = Up /\ unif_timeout x ee = true).
        { unfold unif_event in HU. rewrite E in HU.
          destruct Hx as [[Rx _]|[Ex Ex']].
          - rewrite (real_not_any _ Rx), (unif_key_real_timeout _ Rx) in HU.
            discriminate.
          - rewrite Ex in HU. cbn in HU. auto. }
        destruct HX as (Ex & Es & HT). rewrite Ex, N.eqb_refl, HT.
        unfold match_step, mk. cbn [ms_not ms_async ms_any ms_nmm ms_e ms_down ms_ign].
        assert (Hnot : match es ee with Down => remove_key (ek ee) [] | _ => [] end = [])
          by (destruct (es ee); reflexivity).
        rewrite Hnot, HU, H3, Es, E, N.eqb_refl. cbn [mem_key existsb kstate_eqb orb andb negb].
        rewrite andb_false_r.
        assert (H1 : kstate_eqb (es ee) DownAsync || kstate_eqb (es ee) UpAsync = false).
        { rewrite Hne, orb_false_r. destruct HE as [->|[->|H]]; try reflexivity.
          destruct (es ee); try discriminate; reflexivity. }
        rewrite H1. cbn [tl_if tl]. rewrite orb_false_r.
        destruct (async_filter (ek x) a Ha) as (O & U & K).
        assert (HF0 : filter (fun x0 => negb (ek x =? ek x0)) a = a).
        { destruct Ha as [HF _]. clear - HF Ex. induction a as [|y a IHa]; [reflexivity|].
          inversion HF as [|? ? [Ry _] HF']; subst. cbn. rewrite Ex.
          rewrite N.eqb_sym, (real_not_timeout _ Ry). cbn. f_equal.
          rewrite Ex in IHa. apply IHa; auto. }
        rewrite HF0.
        match goal with |- context [MS ?a ?b ?c ?d ?g ?f ?h] =>
          change (MS a b c d g f h) with (mk a f h) end.
        rewrite IH; [reflexivity|exact Hw|exact Ha|exact Hs'|cbn in *; lia].
      * rewrite step_skip; [|exact Hh|exact Ha|apply timed_not_any; auto|exact HU
           |rewrite Hnn; apply andb_false_r].
        destruct Hx as [[Rx [Ex|Ex]]|[Ex Ex']].
        -- rewrite Ex. rewrite (find_downasync_none a _ true) by auto.
           rewrite (real_not_timeout _ Rx). cbn. 
           destruct (N.eqb_spec (ek x) (ek ee)) as [Heq|]; [|reflexivity].
           destruct Rx as (_ & _ & Rx). congruence.
        -- rewrite Ex. rewrite (real_not_timeout _ Rx). cbn [kstate_eqb orb negb andb].
           pose proof (mark_up (ek x) a Rx Ha) as M.
           destruct (find_index _ a) as [i|].
           ++ destruct M as (-> & O & U & K). cbn [tl_if tl]. rewrite orb_false_r.
              rewrite IH; [|rewrite K; right; right; auto|exact O|exact Hs'|cbn in *; lia].
              rewrite U. cbn [ref]. rewrite Hne. reflexivity.
           ++ rewrite M. reflexivity.
        -- rewrite Ex, Ex'. rewrite find_timeout_none by auto. rewrite E, N.eqb_refl.
           cbn [kstate_eqb orb negb andb].
           assert (HT : unif_timeout x ee = false).
           { unfold unif_event in HU. rewrite Ex, E in HU. cbn in HU. exact HU. }
           rewrite HT. reflexivity.
Qed.

Theorem match_keys_ref ex sq :
  wfx [] ex -> Forall timed_event sq ->
  match_keys ex sq = full (ref ex [] false sq).
Proof.
  intros Hw Hs. unfold match_keys. change ms_init with (mk [] 0 false).
  rewrite loop_follows_ref; auto. split; constructor.
Qed.

(** * Declarative meaning *)

Definition asyncs (ex : sequence) : list key :=
  map ek (filter (fun x => kstate_eqb (es x) UpAsync) ex).

(** A release of [k] is allowed by expression [ex] (with [up] releasable already)
    after [n] presses. *)
Definition may_release (ex : sequence) (up : list key) (k : key) (n : nat) : Prop :=
  In k up \/ exists e1 e e2, ex = e1 ++ e :: e2 /\ ek e = k /\ es e = UpAsync
                             /\ (length (presses e1) <= n)%nat.

Definition rel_ok (ex : sequence) (up : list key) (sq : sequence) : Prop :=
  forall l k v r, sq = l ++ Ev k Up v :: r ->
    ~ In k (releases l) /\ may_release ex up k (length (presses l)).

Lemma rel_ok_nil ex up : rel_ok ex up [].
Proof. intros l k v r H. destruct l; discriminate. Qed.

Lemma rel_ok_async e ex up sq :
  es e = UpAsync -> rel_ok (e :: ex) up sq <-> rel_ok ex (up ++ [ek e]) sq.
Proof.
  intros He. unfold rel_ok, may_release. split; intros H l k v r E; destruct (H l k v r E) as [N M];
    split; auto; clear N.
  - destruct M as [M|(e1 & x & e2 & M & K & S & L)].
    + left. apply in_or_app. auto.
    + destruct e1 as [|y e1]; cbn in M; injection M as -> M.
      * left. apply in_or_app. right. left. exact K.
      * right. exists e1, x, e2. repeat split; auto.
        unfold presses in L. cbn in L. unfold is_press in L at 1. rewrite He in L. exact L.
  - destruct M as [M|(e1 & x & e2 & M & K & S & L)].
    + apply in_app_or in M. destruct M as [M|[M|[]]]; [left; auto|].
      right. exists [], e, ex. repeat split; auto. cbn. lia.
    + right. exists (e :: e1), x, e2. subst ex. repeat split; auto.
      unfold presses. cbn. unfold is_press at 1. rewrite He. exact L.
Qed.

Lemma releases_cons_up k v l : releases (Ev k Up v :: l) = k :: releases l.
Proof. reflexivity. Qed.
Lemma presses_cons_up k v l : presses (Ev k Up v :: l) = presses l.
Proof. reflexivity. Qed.
Lemma releases_cons_down k v l : releases (Ev k Down v :: l) = releases l.
Proof. reflexivity. Qed.
Lemma presses_cons_down k v l : presses (Ev k Down v :: l) = k :: presses l.
Proof. reflexivity. Qed.

Lemma rel_ok_up ex up k v sq :
  In k up -> ~ In k (asyncs ex) ->
  rel_ok ex up (Ev k Up v :: sq) <-> rel_ok ex (remove_key k up) sq.
Proof.
  intros Hk Hn. unfold rel_ok, may_release. split; intros H l j w r E.
  - subst sq. destruct (H (Ev k Up v :: l) j w r eq_refl) as [N M].
    rewrite releases_cons_up in N. rewrite presses_cons_up in M. split.
    + intros HI. apply N. right; auto.
    + destruct M as [M|M]; [left|right; exact M].
      apply remove_key_In. split; auto. intros ->. apply N. left; reflexivity.
  - destruct l as [|x l]; cbn in E.
    + inversion E; subst. split; [intros []|]. left. exact Hk.
    + injection E as <- E. destruct (H l j w r E) as [N M].
      rewrite releases_cons_up, presses_cons_up.
      assert (j <> k).
      { intros ->. destruct M as [M|(e1 & x & e2 & -> & K & S & _)].
        - apply remove_key_In in M. tauto.
        - apply Hn. unfold asyncs. rewrite filter_app, map_app. apply in_or_app. right.
          cbn. rewrite S. cbn. left. exact K. }
      split.
      * intros [HI|HI]; [congruence|auto].
      * destruct M as [M|M]; [left|right; exact M]. apply remove_key_In in M. tauto.
Qed.

Lemma rel_ok_down e ex up k v sq :
  is_press e = true ->
  rel_ok (e :: ex) up (Ev k Down v :: sq) <-> rel_ok ex up sq.
Proof.
  intros He. unfold rel_ok, may_release. split; intros H l j w r E.
  - subst sq. destruct (H (Ev k Down v :: l) j w r eq_refl) as [N M].
    rewrite releases_cons_down in N. rewrite presses_cons_down in M. split; auto.
    destruct M as [M|(e1 & x & e2 & M & K & S & L)]; [left; auto|].
    destruct e1 as [|y e1]; cbn in M; injection M as -> M.
    + unfold is_press in He. rewrite S in He. discriminate.
    + right. exists e1, x, e2. repeat split; auto.
      unfold presses in L. cbn [filter] in L. rewrite He in L. cbn in L. unfold presses. lia.
  - destruct l as [|x l]; cbn in E; [discriminate|].
    injection E as <- E. destruct (H l j w r E) as [N M].
    rewrite releases_cons_down, presses_cons_down. split; auto.
    destruct M as [M|(e1 & x & e2 & M & K & S & L)]; [left; auto|].
    right. exists (e :: e1), x, e2. subst ex. repeat split; auto.
    unfold presses. cbn [filter]. rewrite He. cbn. unfold presses in L. lia.
Qed.

(** Expressions of presses and releases of pairwise distinct keys. *)
Fixpoint wfp (up : list key) (ex : sequence) : Prop :=
  match ex with
  | [] => True
  | e :: r =>
      real_key (ek e) /\ ~ In (ek e) up /\
      ((es e = UpAsync /\ ~ In (ek e) (asyncs r) /\ wfp (up ++ [ek e]) r)
       \/ (es e = Down /\ wfp up r))
  end.

Lemma wfp_weaken ex : forall up up', (forall k, In k up' -> In k up) -> wfp up ex -> wfp up' ex.
Proof.
  induction ex as [|e r IH]; intros up up' H Hw; cbn in *; auto.
  destruct Hw as (R & N & [(E & A & W)|(E & W)]).
  - split; auto. split; [intros HI; apply N, H, HI|]. left. split; auto. split; auto.
    eapply IH; [|exact W]. intros k Hk. apply in_app_or in Hk. apply in_or_app.
    destruct Hk; auto.
  - split; auto. split; [intros HI; apply N, H, HI|]. right. split; auto. eapply IH; eauto.
Qed.

Lemma asyncs_cons e r :
  asyncs (e :: r) = if kstate_eqb (es e) UpAsync then ek e :: asyncs r else asyncs r.
Proof. unfold asyncs. cbn. destruct (kstate_eqb (es e) UpAsync); reflexivity. Qed.

Lemma wfp_async_disjoint ex : forall up k, wfp up ex -> In k up -> ~ In k (asyncs ex).
Proof.
  induction ex as [|e r IH]; intros up k Hw Hk HI; [destruct HI|]. cbn [wfp] in Hw.
  destruct Hw as (R & N & [(E & A & W)|(E & W)]); rewrite asyncs_cons, E in HI; cbn in HI.
  - destruct HI as [HI|HI]; [subst; contradiction|].
    eapply IH; [exact W| |exact HI]. apply in_or_app; auto.
  - eapply IH; eauto.
Qed.

Lemma wfp_wfx ex : forall up, wfp up ex -> wfx up ex.
Proof.
  induction ex as [|e r IH]; intros up Hw; cbn in *; auto.
  destruct Hw as (R & N & [(E & A & W)|(E & W)]).
  - left. auto.
  - right; left. rewrite remove_key_notin by auto. auto.
Qed.

Lemma plain_cases x : plain_event x ->
  (real_key (ek x) /\ x = Ev (ek x) Down (ev x)) \/ (real_key (ek x) /\ x = Ev (ek x) Up (ev x)).
Proof. destruct x as [k s v]; cbn. intros [R [E|E]]; cbn in *; subst; auto. Qed.

Definition matched_spec ex up sq := presses sq = presses ex /\ rel_ok ex up sq.
Definition might_spec ex up sq :=
  (exists k more, presses sq ++ k :: more = presses ex) /\ rel_ok ex up sq.

Lemma rel_ok_up_inv ex up k v sq :
  rel_ok ex up (Ev k Up v :: sq) -> may_release ex up k 0.
Proof. intros H. destruct (H [] k v sq eq_refl) as [_ M]. exact M. Qed.

Lemma ref_spec ex : forall up d sq, wfp up ex -> plain sq ->
  (fst (ref ex up d sq) = Matched <-> matched_spec ex up sq) /\
  (fst (ref ex up d sq) = MightMatch <-> might_spec ex up sq).
Proof.
  unfold matched_spec, might_spec.
  induction ex as [|e ex IH]; intros up d sq Hw Hs; cbn [ref].
  - clear Hw. revert up d. induction sq as [|x sq IHs]; intros up d; cbn [waiting].
    { cbn. split; split; try discriminate; intros.
      - split; [reflexivity|apply rel_ok_nil].
      - reflexivity.
      - destruct H as [(k & more & H) _]. discriminate. }
    inversion Hs as [|? ? Hx Hs']; subst. specialize (IHs Hs').
    destruct (plain_cases x Hx) as [[R ->]|[R ->]]; cbn [ek es ev];
      rewrite (real_not_timeout _ R).
    { cbn [fst]. rewrite presses_cons_down. cbn.
      split; split; try discriminate; intros; destruct H as [H _]; try discriminate.
      destruct H as (? & ? & ?); discriminate. }
    destruct (mem_key (ek x) up) eqn:M.
    + apply mem_key_In in M.
      rewrite rel_ok_up by (auto; intros []). rewrite presses_cons_up. apply IHs.
    + apply mem_key_false in M. cbn [fst].
      split; split; try discriminate; intros [_ HR]; exfalso; apply rel_ok_up_inv in HR;
        destruct HR as [HR|(e1 & y & e2 & HR & _)]; auto; destruct e1; discriminate.
  - cbn [wfp] in Hw. destruct Hw as (R & N & [(E & A & W)|(E & W)]).
    { rewrite E. cbn [kstate_eqb]. rewrite rel_ok_async by exact E.
      assert (P : presses (e :: ex) = presses ex)
        by (unfold presses; cbn; unfold is_press at 1; rewrite E; reflexivity).
      rewrite P. apply IH; auto. }
    rewrite E. cbn [kstate_eqb].
    assert (P : presses (e :: ex) = ek e :: presses ex)
      by (unfold presses; cbn; unfold is_press at 1; rewrite E; reflexivity).
    assert (HP : is_press e = true) by (unfold is_press; rewrite E; reflexivity).
    assert (HA : asyncs (e :: ex) = asyncs ex) by (rewrite asyncs_cons, E; reflexivity).
    rewrite P. revert up d N W.
    induction sq as [|x sq IHs]; intros up d N W; cbn [waiting].
    { cbn. split; split; try discriminate; intros.
      - destruct H; discriminate.
      - split; [exists (ek e), (presses ex); reflexivity|apply rel_ok_nil].
      - reflexivity. }
    inversion Hs as [|? ? Hx Hs']; subst. specialize (IHs Hs').
    destruct (plain_cases x Hx) as [[Rx ->]|[Rx ->]]; cbn [ek es ev];
      rewrite (real_not_timeout _ Rx).
    + rewrite presses_cons_down. destruct (N.eqb_spec (ek x) (ek e)) as [Heq|Hne].
      * rewrite rel_ok_down by exact HP. rewrite Heq.
        rewrite remove_key_notin by auto.
        destruct (IH up true sq W Hs') as [I1 I2]. split.
        -- rewrite I1. split; intros [H1 H2]; split; auto; congruence.
        -- rewrite I2. split; intros [(k & more & H1) H2]; split; auto;
             exists k, more; cbn in *; congruence.
      * cbn [fst]. split; split; try discriminate; intros [H _]; try congruence.
        destruct H as (k & more & H). cbn in H. congruence.
    + rewrite presses_cons_up. destruct (mem_key (ek x) up) eqn:M.
      * apply mem_key_In in M.
        assert (DJ : ~ In (ek x) (asyncs (e :: ex)))
          by (rewrite HA; eapply wfp_async_disjoint; eauto).
        rewrite rel_ok_up by auto. apply IHs.
        -- intros HI. apply remove_key_In in HI. tauto.
        -- eapply wfp_weaken; [|exact W]. intros k HI. apply remove_key_In in HI. tauto.
      * apply mem_key_false in M. cbn [fst].
        split; split; try discriminate; intros [_ HR]; exfalso; apply rel_ok_up_inv in HR;
          destruct HR as [HR|(e1 & y & e2 & HR & K & S & L)]; auto.
        all: destruct e1 as [|z e1]; cbn in HR; injection HR as -> HR; [congruence|].
        all: unfold presses in L; cbn [filter] in L; rewrite HP in L; cbn in L; lia.
Qed.

(** * Expressions of keys, sequences and held keys *)

Lemma presses_app a b : presses (a ++ b) = presses a ++ presses b.
Proof. unfold presses. rewrite filter_app, map_app. reflexivity. Qed.
Lemma asyncs_app a b : asyncs (a ++ b) = asyncs a ++ asyncs b.
Proof. unfold asyncs. rewrite filter_app, map_app. reflexivity. Qed.

Lemma NoDup_app_r {A} (l l' : list A) : NoDup (l ++ l') -> NoDup l'.
Proof. induction l; cbn; auto. intros H; inversion H; auto. Qed.
Lemma NoDup_app_l {A} (l l' : list A) : NoDup (l ++ l') -> NoDup l.
Proof.
  induction l; cbn; intros H; constructor; inversion H; subst; auto.
  intros HI. apply H2. apply in_or_app; auto.
Qed.

Lemma presses_icompile x : presses (icompile x) = ikeys x.
Proof.
  induction x as [k|a IHa b IHb|k a IHa]; cbn [icompile ikeys].
  - reflexivity.
  - rewrite presses_app. congruence.
  - change (ev0 k Down :: icompile a ++ [ev0 k UpAsync])
      with ([ev0 k Down] ++ icompile a ++ [ev0 k UpAsync]).
    rewrite !presses_app, IHa. cbn. rewrite app_nil_r. reflexivity.
Qed.

Lemma asyncs_icompile x : Permutation (asyncs (icompile x)) (ikeys x).
Proof.
  induction x as [k|a IHa b IHb|k a IHa]; cbn [icompile ikeys].
  - reflexivity.
  - rewrite asyncs_app. apply Permutation_app; auto.
  - change (ev0 k Down :: icompile a ++ [ev0 k UpAsync])
      with ([ev0 k Down] ++ icompile a ++ [ev0 k UpAsync]).
    rewrite !asyncs_app. cbn. rewrite <- Permutation_cons_append. constructor. exact IHa.
Qed.

Lemma wfp_icompile x : forall up rest,
  Forall real_key (ikeys x) -> NoDup (ikeys x) ->
  (forall k, In k (ikeys x) -> ~ In k up /\ ~ In k (asyncs rest)) ->
  wfp (up ++ asyncs (icompile x)) rest ->
  wfp up (icompile x ++ rest).
Proof.
  induction x as [k|a IHa b IHb|k a IHa]; intros up rest HR HN HD HW; cbn [icompile ikeys app] in *.
  - inversion HR; subst. destruct (HD k) as [D1 D2]; [left; reflexivity|].
    cbn. split; auto. split; auto. right. split; auto.
    split; auto.
  - apply Forall_app in HR. destruct HR as [RA RB].
    apply NoDup_app_r in HN as NB. apply NoDup_app_l in HN as NA.
    assert (DAB : forall k, In k (ikeys a) -> ~ In k (ikeys b)).
    { intros k Ha Hb. clear - HN Ha Hb. induction (ikeys a) as [|y l IH]; [destruct Ha|].
      cbn in HN. inversion HN; subst. destruct Ha as [->|Ha]; [|auto].
      apply H1. apply in_or_app; auto. }
    rewrite <- app_assoc. apply IHa; auto.
    + intros k Hk. split; [apply HD; apply in_or_app; auto|].
      rewrite asyncs_app. intros HI. apply in_app_or in HI. destruct HI as [HI|HI].
      * apply (DAB k Hk). eapply Permutation_in; [apply asyncs_icompile|exact HI].
      * destruct (HD k) as [D1 D2]; [apply in_or_app; auto|]. exact (D2 HI).
    + apply IHb; auto.
      * intros k Hk. split; [|apply HD; apply in_or_app; auto].
        intros HI. apply in_app_or in HI. destruct HI as [HI|HI].
        -- destruct (HD k) as [D1 D2]; [apply in_or_app; auto|]. exact (D1 HI).
        -- apply (DAB k); auto. eapply Permutation_in; [apply asyncs_icompile|exact HI].
      * rewrite asyncs_app, app_assoc in HW. exact HW.
  - inversion HR; subst. inversion HN; subst.
    destruct (HD k) as [D1 D2]; [left; reflexivity|].
    split; auto. split; auto. right. split; [reflexivity|].
    rewrite <- app_assoc. apply IHa; auto.
    + intros j Hj. destruct (HD j) as [J1 J2]; [right; auto|]. split; auto.
      cbn [app]. rewrite asyncs_cons. cbn. intros [->|HI]; auto.
    + cbn [app]. split; auto. cbn [ek]. split.
      { intros HI. apply in_app_or in HI. destruct HI as [HI|HI]; auto.
        apply H3. eapply Permutation_in; [apply asyncs_icompile|exact HI]. }
      left. split; auto. split; auto.
      change (ev0 k Down :: icompile a ++ [ev0 k UpAsync])
        with ([ev0 k Down] ++ icompile a ++ [ev0 k UpAsync]) in HW.
      rewrite !asyncs_app in HW. cbn in HW. rewrite <- app_assoc. exact HW.
Qed.

Lemma iheld_notin x k : ~ In k (ikeys x) -> iheld x k = [].
Proof.
  induction x as [j|a IHa b IHb|j a IHa]; cbn; intros H.
  - destruct (N.eqb_spec j k); [exfalso; apply H; auto|reflexivity].
  - rewrite IHa, IHb; auto; intros HI; apply H; apply in_or_app; auto.
  - destruct (N.eqb_spec j k); [exfalso; apply H; auto|]. apply IHa. auto.
Qed.

(** Where the release of a key stands in the compiled expression. *)
Lemma icompile_split x k :
  NoDup (ikeys x) -> In k (ikeys x) ->
  exists e1 e2 p, icompile x = e1 ++ ev0 k UpAsync :: e2 /\
    presses e1 = p ++ iheld x k /\ iheld x k <> [].
Proof.
  induction x as [j|a IHa b IHb|j a IHa]; cbn [icompile ikeys iheld]; intros HN HI.
  - destruct HI as [->|[]]. exists [ev0 k Down], [], []. rewrite N.eqb_refl. repeat split.
    discriminate.
  - apply NoDup_app_r in HN as NB. apply NoDup_app_l in HN as NA.
    assert (DAB : In k (ikeys a) -> ~ In k (ikeys b)).
    { intros Ha Hb. clear - HN Ha Hb. induction (ikeys a) as [|y l IH]; [destruct Ha|].
      cbn in HN. inversion HN; subst. destruct Ha as [->|Ha]; [|auto].
      apply H1. apply in_or_app; auto. }
    apply in_app_or in HI. destruct HI as [HI|HI].
    + destruct (IHa NA HI) as (e1 & e2 & p & E & P & Q).
      rewrite (iheld_notin b k) by auto. rewrite app_nil_r.
      exists e1, (e2 ++ icompile b), p. rewrite E, <- app_assoc. auto.
    + destruct (IHb NB HI) as (e1 & e2 & p & E & P & Q).
      rewrite (iheld_notin a k) by (intros Ha; apply DAB; auto).
      exists (icompile a ++ e1), e2, (ikeys a ++ p).
      cbn [app]. rewrite E, presses_app, P, presses_icompile, <- !app_assoc. auto.
  - inversion HN; subst. destruct (N.eqb_spec j k) as [->|Hne].
    + exists (ev0 k Down :: icompile a), [], []. split; [reflexivity|].
      change (ev0 k Down :: icompile a) with ([ev0 k Down] ++ icompile a).
      rewrite presses_app, presses_icompile. split; [reflexivity|discriminate].
    + destruct HI as [HI|HI]; [congruence|].
      destruct (IHa H2 HI) as (e1 & e2 & p & E & P & Q).
      exists (ev0 j Down :: e1), (e2 ++ [ev0 j UpAsync]), (j :: p).
      change (ev0 j Down :: e1) with ([ev0 j Down] ++ e1).
      rewrite E, presses_app, P, <- app_assoc. auto.
Qed.

Lemma asyncs_unique ex k : NoDup (asyncs ex) -> forall e1 e e2 f1 f f2,
  ex = e1 ++ e :: e2 -> ex = f1 ++ f :: f2 ->
  ek e = k -> es e = UpAsync -> ek f = k -> es f = UpAsync -> e1 = f1.
Proof.
  intros HN e1. revert ex HN. induction e1 as [|x e1 IH]; intros ex HN e e2 f1 f f2 E F Ke Se Kf Sf.
  - destruct f1 as [|y f1]; auto. exfalso. cbn in *. subst ex. injection F as -> F.
    rewrite asyncs_cons, Se in HN. cbn in HN. inversion HN; subst. apply H1.
    rewrite asyncs_app, asyncs_cons, Sf. cbn. apply in_or_app. right. left. auto.
  - destruct f1 as [|y f1].
    + exfalso. cbn in *. subst ex. injection F as -> F.
      rewrite asyncs_cons, Sf in HN. cbn in HN. inversion HN; subst. apply H1.
      rewrite asyncs_app, asyncs_cons, Se. cbn. apply in_or_app. right. left. auto.
    + cbn in *. subst ex. injection F as -> F. f_equal.
      rewrite asyncs_cons in HN.
      eapply (IH (e1 ++ e :: e2)); eauto.
      destruct (kstate_eqb (es y) UpAsync); [inversion HN; auto|exact HN].
Qed.

Lemma rel_ok_icompile x sq :
  NoDup (ikeys x) -> (exists more, presses sq ++ more = ikeys x) ->
  rel_ok (icompile x) [] sq <-> ireleases_ok x sq.
Proof.
  intros HN [more HP]. unfold rel_ok, ireleases_ok, may_release.
  assert (HNA : NoDup (asyncs (icompile x))).
  { eapply Permutation_NoDup; [symmetry; apply asyncs_icompile|auto]. }
  split; intros H l k v r E; specialize (H l k v r E).
  - destruct H as [N [[]|(e1 & e & e2 & HE & K & S & L)]].
    assert (Hk : In k (ikeys x)).
    { eapply Permutation_in; [apply asyncs_icompile|]. rewrite HE, asyncs_app, asyncs_cons, S.
      cbn. apply in_or_app. right. left. auto. }
    split; auto. split; auto.
    destruct (icompile_split x k HN Hk) as (f1 & f2 & p & HF & P & Q).
    assert (e1 = f1) by (eapply (asyncs_unique (icompile x)); eauto). subst f1.
    assert (PP : presses e1 ++ presses (e :: e2) = presses sq ++ more).
    { rewrite <- presses_app, <- HE, presses_icompile. auto. }
    rewrite E, presses_app, <- app_assoc in PP.
    intros y Hy.
    assert (In y (presses e1)) by (rewrite P; apply in_or_app; auto).
    assert (exists q, presses l = presses e1 ++ q) as [q Hq].
    { clear - PP L. revert PP L. generalize (presses (Ev k Up v :: r) ++ more) (presses (e :: e2)).
      generalize (presses l) (presses e1). intros a b. revert a.
      induction b as [|z b IH]; intros a c d H L; [exists a; reflexivity|].
      destruct a as [|z' a]; cbn in L; [lia|]. cbn in H. injection H as -> H.
      destruct (IH a c d H) as [q ->]; [lia|]. exists q. reflexivity. }
    rewrite Hq. apply in_or_app; auto.
  - destruct H as (Hk & N & HI). split; auto. right.
    destruct (icompile_split x k HN Hk) as (f1 & f2 & p & HF & P & Q).
    exists f1, (ev0 k UpAsync), f2. repeat split; auto.
    assert (PP : presses f1 ++ presses (ev0 k UpAsync :: f2) = presses sq ++ more).
    { rewrite <- presses_app, <- HF, presses_icompile. auto. }
    assert (ND : NoDup (presses sq ++ more)) by (rewrite HP; auto).
    rewrite E, presses_app, <- app_assoc in PP, ND.
    destruct (exists_last Q) as (q & y & Hq).
    assert (HL : In y (presses l)) by (apply HI; rewrite Hq; apply in_or_app; right; left; auto).
    rewrite P, Hq, app_assoc in PP. rewrite P, Hq, app_assoc, app_length. cbn.
    clear - PP HL ND. revert PP ND HL.
    generalize (presses (Ev k Up v :: r) ++ more) (presses (ev0 k UpAsync :: f2)).
    generalize (presses l) (p ++ q). intros a b. revert a.
    induction b as [|z b IH]; intros a c d H ND HL; cbn in *.
    + destruct a; [destruct HL|cbn; lia].
    + destruct a as [|z' a]; [destruct HL|]. cbn in H. injection H as -> H.
      cbn in ND. inversion ND; subst.
      destruct HL as [->|HL]; [|specialize (IH a c d H H3 HL); cbn; lia].
      exfalso. apply H2. rewrite <- H, <- app_assoc. apply in_or_app. right. left. reflexivity.
Qed.

(** The verdict on every plain history is the one of the specification. *)
Theorem match_iexpr x sq :
  NoDup (ikeys x) -> Forall real_key (ikeys x) -> plain sq ->
  exists r, match_keys (icompile x) sq = Some (r, [], None) /\
    (r = Matched <-> ifulfils x sq) /\
    (r = MightMatch <-> imight x sq).
Proof.
  intros HN HR HS.
  assert (HW : wfp [] (icompile x)).
  { rewrite <- (app_nil_r (icompile x)). apply wfp_icompile; auto. exact I. }
  rewrite match_keys_ref.
  2:{ apply wfp_wfx; auto. }
  2:{ eapply Forall_impl; [|exact HS]. intros e He. left; auto. }
  destruct (ref_spec (icompile x) [] false sq HW HS) as [S1 S2].
  unfold matched_spec, might_spec in *. rewrite presses_icompile in S1, S2.
  exists (fst (ref (icompile x) [] false sq)). unfold full. split.
  - f_equal. f_equal.
    assert (HT : forall ex up d, wfp up ex -> snd (ref ex up d sq) = None).
    { clear - HS. intros ex. revert sq HS. induction ex as [|e ex IH]; intros sq HS up d HW; cbn [ref].
      - clear HW. revert up d. induction sq as [|x sq IHs]; intros up d; cbn; [reflexivity|].
        inversion HS; subst.
        destruct (plain_cases x H1) as [[R ->]|[R ->]]; cbn [ek es];
          rewrite (real_not_timeout _ R); cbn; auto.
        destruct (mem_key (ek x) up); auto.
      - destruct HW as (R & N & [(E & A & W)|(E & W)]); rewrite E; cbn [kstate_eqb]; auto.
        clear N. revert up d W. induction sq as [|x sq IHs]; intros up d W; cbn [waiting].
        + rewrite (real_not_timeout _ R). reflexivity.
        + inversion HS; subst.
          destruct (plain_cases x H1) as [[Rx ->]|[Rx ->]]; cbn [ek es];
            rewrite (real_not_timeout _ Rx).
          * destruct (ek x =? ek e); [|reflexivity]. apply IH; auto.
            eapply wfp_weaken; [|exact W]. intros k HI. apply remove_key_In in HI. tauto.
          * destruct (mem_key (ek x) up); [|reflexivity]. apply IHs; auto.
            eapply wfp_weaken; [|exact W]. intros k HI. apply remove_key_In in HI. tauto. }
    apply HT. exact HW.
  - unfold ifulfils, imight. split.
    + rewrite S1. split; intros [P Q]; split; auto;
        apply (rel_ok_icompile x sq HN); auto; exists []; rewrite app_nil_r; auto.
    + rewrite S2. split; intros [(k & more & P) Q]; (split; [exists k, more; auto|]);
        apply (rel_ok_icompile x sq HN); auto; exists (k :: more); auto.
Qed.
