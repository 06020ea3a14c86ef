(** Proofs about the matcher model [Match]. *)
From Coq Require Import List NArith Bool Lia.
From Verif Require Import Base Key Match.
Import ListNotations.
Local Open Scope N_scope.

(** * Basic facts *)

Lemma kstate_eqb_spec a b : reflect (a = b) (kstate_eqb a b).
Proof. destruct a, b; cbn; constructor; congruence. Qed.

Lemma kstate_eqb_refl a : kstate_eqb a a = true.
Proof. destruct a; reflexivity. Qed.

Lemma kstate_eqb_eq a b : kstate_eqb a b = true <-> a = b.
Proof. destruct (kstate_eqb_spec a b); split; congruence. Qed.

Lemma event_eqb_spec a b : reflect (a = b) (event_eqb a b).
Proof.
  destruct a as [k s v], b as [k' s' v']; unfold event_eqb; cbn [ek es ev].
  destruct (N.eqb_spec k k'); cbn; [|constructor; congruence].
  destruct (kstate_eqb_spec s s'); cbn; [|constructor; congruence].
  destruct (N.eqb_spec v v'); constructor; congruence.
Qed.

Lemma event_eqb_refl a : event_eqb a a = true.
Proof. destruct (event_eqb_spec a a); congruence. Qed.

Lemma event_eqb_eq a b : event_eqb a b = true <-> a = b.
Proof. destruct (event_eqb_spec a b); split; congruence. Qed.

Lemma mem_key_In k l : mem_key k l = true <-> In k l.
Proof.
  unfold mem_key. rewrite existsb_exists. split.
  - intros (x & Hx & E). apply N.eqb_eq in E. subst; auto.
  - intros H. exists k. split; auto. apply N.eqb_refl.
Qed.

Lemma unif_key_none_l k : unif_key k_none k = false.
Proof. reflexivity. Qed.
Lemma unif_key_none_r k : unif_key k k_none = false.
Proof. unfold unif_key. rewrite N.eqb_refl, orb_true_r. reflexivity. Qed.
Lemma unif_event_none_l e s v : unif_event (Ev k_none s v) e = false.
Proof.
  unfold unif_event; cbn [ek es ev]. rewrite unif_key_none_l. cbn.
  destruct (_ && _); reflexivity.
Qed.
Lemma unif_event_none_r e s v : unif_event e (Ev k_none s v) = false.
Proof.
  unfold unif_event; cbn [ek es ev]. rewrite unif_key_none_r.
  destruct (_ && _); [reflexivity|]. destruct (_ && _); reflexivity.
Qed.

Lemma find_index_false {A} (f : A -> bool) l :
  (forall x, f x = false) -> find_index f l = None.
Proof. intros H. induction l as [|x l IH]; cbn; [reflexivity|]. rewrite H, IH. reflexivity. Qed.

Lemma mem_key_app k l l' : mem_key k (l ++ l') = mem_key k l || mem_key k l'.
Proof. apply existsb_app. Qed.

Lemma mem_key_one k x : x <> k -> mem_key k [x] = false.
Proof. intros H. cbn. apply N.eqb_neq in H. rewrite N.eqb_sym, H. reflexivity. Qed.

(** Case analysis of a step. *)
Ltac step_cases H :=
  repeat (cbn [ek es ev] in H;
    match type of H with
    | (if ?b then _ else _) = _ => destruct b eqn:?
    | match find_index ?f ?l with _ => _ end = _ => destruct (find_index f l) eqn:?
    | MGo _ _ _ = MGo _ _ _ => injection H as <- <- <-
    | MRet _ _ = MRet _ _ => injection H as <- <-
    | MGo _ _ _ = MRet _ _ => discriminate H
    | MRet _ _ = MGo _ _ _ => discriminate H
    end).

(** * Termination (C01) *)

Lemma step_progress ee se b m ae as_ m' :
  match_step ee se b m = MGo ae as_ m' -> ae || as_ = true.
Proof. unfold match_step. intros H. step_cases H; reflexivity. Qed.

Lemma step_ign ee se b m ae as_ m' :
  match_step ee se b m = MGo ae as_ m' ->
  ms_ign m' = ms_ign m \/ ms_ign m' = ms_ign m ++ [ek se].
Proof.
  unfold match_step. intros H.
  step_cases H; cbn [ms_ign]; auto.
  destruct (kstate_eqb (es se) Down); auto.
Qed.

(** At the end of the sequence nothing is consumed from it. *)
Lemma step_at_end ee m ae as_ m' :
  mem_key k_none (ms_ign m) = false ->
  match_step ee matches_none true m = MGo ae as_ m' ->
  ae = true /\ as_ = false /\ ms_ign m' = ms_ign m.
Proof.
  intros Hn. unfold match_step, matches_none. intros H.
  step_cases H; cbn [ms_ign]; auto; exfalso.
  all: repeat match goal with
       | E : context [k_none =? k_none] |- _ => rewrite N.eqb_refl in E
       | E : unif_event (Ev k_none _ _) _ = true |- _ =>
           rewrite unif_event_none_l in E; discriminate E
       | E : find_index _ _ = Some _ |- _ =>
           rewrite find_index_false in E; [discriminate E | intros; apply andb_false_r]
       end.
  all: cbn in *; rewrite ?andb_false_r, ?andb_true_r in *; try discriminate.
  all: unfold mem_key in *; rewrite ?Hn, ?andb_false_r in *; try discriminate.
Qed.

(** At the end of the expression nothing is consumed from it. *)
Lemma step_no_expr se b m ae as_ m' :
  match_step matches_none se b m = MGo ae as_ m' -> ae = false /\ as_ = true.
Proof.
  unfold match_step, matches_none. intros H.
  step_cases H; auto; exfalso; cbn in *; try discriminate.
  all: try (rewrite unif_event_none_r in *; discriminate).
  all: rewrite find_index_false in *; try discriminate.
  all: intros x; rewrite andb_false_r; reflexivity.
Qed.

Definition no_none (l : sequence) : Prop := Forall (fun e => ek e <> k_none) l.

Lemma match_loop_terminates ex : forall sq m fuel,
  no_none sq -> mem_key k_none (ms_ign m) = false ->
  (length ex + length sq <= fuel)%nat ->
  exists r, match_loop fuel ex sq m = Some r.
Proof.
  intros sq m fuel. revert ex sq m.
  induction fuel as [|fuel IH]; intros ex sq m Hno Hign Hf.
  - destruct ex, sq; cbn in Hf; try lia. eexists; reflexivity.
  - destruct ex as [|ee ex], sq as [|se sq]; cbn [match_loop hd];
      [eexists; reflexivity| | |].
    + destruct (match_step _ _ _ _) as [r t|ae as_ m'] eqn:E; [eexists; reflexivity|].
      destruct (step_no_expr _ _ _ _ _ _ E) as [-> ->]. cbn [tl_if tl].
      inversion Hno; subst. apply IH; auto; [|cbn in *; lia].
      destruct (step_ign _ _ _ _ _ _ _ E) as [->| ->]; auto.
      rewrite mem_key_app, Hign, mem_key_one; auto.
    + destruct (match_step _ _ _ _) as [r t|ae as_ m'] eqn:E; [eexists; reflexivity|].
      destruct (step_at_end _ _ _ _ _ Hign E) as (-> & -> & Hi). cbn [tl_if tl].
      apply IH; auto; [congruence|cbn in *; lia].
    + destruct (match_step _ _ _ _) as [r t|ae as_ m'] eqn:E; [eexists; reflexivity|].
      pose proof (step_progress _ _ _ _ _ _ _ E) as P.
      inversion Hno; subst.
      assert (Hi : mem_key k_none (ms_ign m') = false).
      { destruct (step_ign _ _ _ _ _ _ _ E) as [->| ->]; auto.
        rewrite mem_key_app, Hign, mem_key_one; auto. }
      apply IH; auto.
      * destruct as_; cbn; auto.
      * destruct ae, as_; cbn in *; try discriminate; lia.
Qed.

(** The loop of the code as a relation without fuel: a run ends with a result after
    finitely many rounds, never advancing past either end. *)
Inductive match_run : sequence -> sequence -> mstate -> nat -> mresult_full -> Prop :=
| run_done m : match_run [] [] m 0 (Matched, ms_any m, None)
| run_ret ex sq m r t :
    ex <> [] \/ sq <> [] ->
    match_step (hd matches_none ex) (hd matches_none sq)
               (match sq with [] => true | _ => false end) m = MRet r t ->
    match_run ex sq m 1 (r, ms_any m, t)
| run_go ex sq m (ae as_ : bool) m' n res :
    ex <> [] \/ sq <> [] ->
    match_step (hd matches_none ex) (hd matches_none sq)
               (match sq with [] => true | _ => false end) m = MGo ae as_ m' ->
    (ae = true -> ex <> []) -> (as_ = true -> sq <> []) ->
    match_run (tl_if ae ex) (tl_if as_ sq) m' n res ->
    match_run ex sq m (S n) res.

Lemma match_run_exists ex : forall sq m fuel,
  no_none sq -> mem_key k_none (ms_ign m) = false ->
  (length ex + length sq <= fuel)%nat ->
  exists n r, (n <= fuel)%nat /\ match_run ex sq m n r /\ match_loop fuel ex sq m = Some r.
Proof.
  intros sq m fuel. revert ex sq m.
  induction fuel as [|fuel IH]; intros ex sq m Hno Hign Hf.
  - destruct ex, sq; cbn in Hf; try lia. exists 0%nat. eexists.
    split; [lia|]. split; [constructor|reflexivity].
  - assert (Hdec : (ex = [] /\ sq = []) \/ (ex <> [] \/ sq <> []))
      by (destruct ex, sq; auto; right; try (left; discriminate); right; discriminate).
    destruct Hdec as [[-> ->]|Hne].
    { exists 0%nat. eexists. split; [lia|]. split; [constructor|reflexivity]. }
    assert (Hl : match_loop (S fuel) ex sq m =
      match match_step (hd matches_none ex) (hd matches_none sq)
               (match sq with [] => true | _ => false end) m with
        | MRet r t => Some (r, ms_any m, t)
        | MGo ae as_ m' => match_loop fuel (tl_if ae ex) (tl_if as_ sq) m'
        end) by (destruct ex, sq; try reflexivity; destruct Hne; congruence).
    rewrite Hl.
    destruct (match_step (hd matches_none ex) (hd matches_none sq)
               (match sq with [] => true | _ => false end) m) as [r t|ae as_ m'] eqn:E.
    { exists 1%nat. eexists. split; [lia|]. split; [eapply run_ret; eauto|reflexivity]. }
    pose proof (step_progress _ _ _ _ _ _ _ E) as P.
    assert (Ha : ae = true -> ex <> []).
    { intros -> ->. apply step_no_expr in E. destruct E; discriminate. }
    assert (Hs : as_ = true -> sq <> []).
    { intros -> ->. apply step_at_end in E; auto. destruct E as (_ & ? & _); discriminate. }
    assert (Hi : mem_key k_none (ms_ign m') = false).
    { destruct sq as [|se sq].
      - apply step_at_end in E; auto. destruct E as (_ & _ & ->). auto.
      - destruct (step_ign _ _ _ _ _ _ _ E) as [->| ->]; auto.
        inversion Hno; subst.
        rewrite mem_key_app, Hign, mem_key_one; auto. }
    destruct (IH (tl_if ae ex) (tl_if as_ sq) m') as (n & r & Hn & R & L); auto.
    + destruct as_, sq; cbn; auto. inversion Hno; auto.
    + destruct ae, as_, ex, sq; cbn in *; try discriminate; try lia;
        try (exfalso; apply Ha; reflexivity); try (exfalso; apply Hs; reflexivity).
    + exists (S n), r. split; [lia|]. split; [eapply run_go; eauto|exact L].
Qed.

(** Matching ends for every expression and every sequence of real keys, after at
    most one round per event of the two, without running past the end of either. *)
Theorem match_keys_total ex sq :
  no_none sq ->
  exists n r anys t,
    (n <= length ex + length sq)%nat /\
    match_run ex sq ms_init n (r, anys, t) /\
    match_keys ex sq = Some (r, anys, t).
Proof.
  intros H. destruct (match_run_exists ex sq ms_init (length ex + length sq))
    as (n & [[r anys] t] & Hn & R & L); auto.
  exists n, r, anys, t. auto.
Qed.

(** The loop is deterministic: the fuel does not influence the answer. *)
Lemma match_loop_run fuel : forall ex sq m r,
  match_loop fuel ex sq m = Some r -> forall f', (fuel <= f')%nat -> match_loop f' ex sq m = Some r.
Proof.
  induction fuel as [|fuel IH]; intros ex sq m r H f' Hf.
  - destruct ex, sq; cbn in H; try discriminate. destruct f'; exact H.
  - destruct f' as [|f']; [lia|].
    destruct ex, sq; cbn [match_loop] in *; auto;
      (destruct (match_step _ _ _ _); [exact H|]; apply IH; [exact H|lia]).
Qed.

(** Without the restriction to real keys the loop of the code does not end: an
    ignored press of key none makes it skip past the end of the sequence for ever. *)
Lemma match_loop_cons f ee ex sq m :
  match_loop (S f) (ee :: ex) sq m =
  match match_step ee (hd matches_none sq) (match sq with [] => true | _ => false end) m with
  | MRet r t => Some (r, ms_any m, t)
  | MGo ae as_ m' => match_loop f (tl_if ae (ee :: ex)) (tl_if as_ sq) m'
  end.
Proof. destruct sq; reflexivity. Qed.

Lemma match_keys_none_diverges : forall fuel,
  match_loop fuel [ev0 k_none NoMightMatch; ev0 30 Down; ev0 31 Down]
                  [ev0 k_none Down; ev0 30 Down] ms_init = None.
Proof.
  assert (L : forall f, match_loop f [ev0 31 Down] [] (MS [] [] [k_none] [] true 2 true) = None).
  { induction f as [|f IH]; [reflexivity|]. rewrite match_loop_cons.
    replace (match_step _ _ _ _) with (MGo false true (MS [] [] [k_none] [] true 2 true))
      by (vm_compute; reflexivity).
    exact IH. }
  intros fuel.
  destruct fuel as [|fuel]; [reflexivity|]. rewrite match_loop_cons.
  replace (match_step _ _ _ _) with (MGo true false (MS [] [] [] [] true 1 false))
    by (vm_compute; reflexivity).
  destruct fuel as [|fuel]; [reflexivity|]. cbn [tl_if tl]. rewrite match_loop_cons.
  replace (match_step _ _ _ _) with (MGo false true (MS [] [] [k_none] [] true 1 true))
    by (vm_compute; reflexivity).
  destruct fuel as [|fuel]; [reflexivity|]. cbn [tl_if tl]. rewrite match_loop_cons.
  replace (match_step _ _ _ _) with (MGo true true (MS [] [] [k_none] [] true 2 true))
    by (vm_compute; reflexivity).
  exact (L fuel).
Qed.

(** * A mapping is never missed by giving up early (C02) *)

Definition no_nmm (ex : sequence) : Prop := Forall (fun e => es e <> NoMightMatch) ex.

Lemma step_nmm ee se b m ae as_ m' :
  es ee <> NoMightMatch -> ms_nmm m = false ->
  match_step ee se b m = MGo ae as_ m' -> ms_nmm m' = false.
Proof.
  intros Hs Hm H. unfold match_step in H.
  step_cases H; cbn [ms_nmm] in *; auto.
  apply kstate_eqb_eq in Heqb6; congruence.
Qed.

(** Once the sequence is used up, the matcher does not answer `no match`. *)
Lemma step_at_end_nonno ee m t :
  es ee <> NoMightMatch -> ms_nmm m = false ->
  match_step ee matches_none true m <> MRet NoMatch t.
Proof.
  intros Hs Hm H. unfold match_step, matches_none in H.
  step_cases H; cbn [ms_nmm] in *; rewrite ?Hm, ?andb_false_r in *; try discriminate.
Qed.

Lemma match_loop_end_nonno fuel : forall ex m r anys t,
  no_nmm ex -> ms_nmm m = false -> mem_key k_none (ms_ign m) = false ->
  match_loop fuel ex [] m = Some (r, anys, t) -> r <> NoMatch.
Proof.
  induction fuel as [|fuel IH]; intros ex m r anys t Hex Hm Hi H.
  - destruct ex; cbn in H; [|discriminate]. injection H as <- _ _. discriminate.
  - destruct ex as [|ee ex]; cbn [match_loop hd] in H.
    { injection H as <- _ _. discriminate. }
    inversion Hex; subst.
    destruct (match_step _ _ _ _) as [r' t'|ae as_ m'] eqn:E.
    + injection H as <- <- <-. intros ->. eapply step_at_end_nonno; eauto.
    + destruct (step_at_end _ _ _ _ _ Hi E) as (-> & -> & Hi').
      pose proof (step_nmm _ _ _ _ _ _ _ H2 Hm E) as Hm'.
      eapply IH; [| | |exact H]; auto. congruence.
Qed.

Lemma match_loop_prefix fuel : forall ex sq more m r anys t r' anys' t' fuel',
  no_nmm ex -> ms_nmm m = false -> mem_key k_none (ms_ign m) = false ->
  match_loop fuel ex sq m = Some (r, anys, t) ->
  match_loop fuel' ex (sq ++ more) m = Some (r', anys', t') ->
  r = NoMatch -> r' = NoMatch.
Proof.
  induction fuel as [|fuel IH]; intros ex sq more m r anys t r' anys' t' fuel' Hex Hm Hi H H' Hr.
  - destruct ex, sq; cbn in H; try discriminate. injection H as <- _ _. discriminate.
  - destruct sq as [|se sq].
    { exfalso. eapply match_loop_end_nonno; eauto. }
    destruct fuel' as [|fuel']; [destruct ex; discriminate H'|].
    cbn [app] in H'.
    assert (HE : match match_step (hd matches_none ex) se false m with
                 | MRet r t => Some (r, ms_any m, t)
                 | MGo ae as_ m' => match_loop fuel (tl_if ae ex) (tl_if as_ (se :: sq)) m'
                 end = Some (r, anys, t)) by (destruct ex; exact H).
    assert (HE' : match match_step (hd matches_none ex) se false m with
                 | MRet r t => Some (r, ms_any m, t)
                 | MGo ae as_ m' => match_loop fuel' (tl_if ae ex) (tl_if as_ (se :: sq ++ more)) m'
                 end = Some (r', anys', t')) by (destruct ex; exact H').
    destruct (match_step _ _ _ _) as [r0 t0|ae as_ m'] eqn:E.
    { congruence. }
    assert (Hne : es (hd matches_none ex) <> NoMightMatch)
      by (destruct ex; [discriminate|inversion Hex; auto]).
    pose proof (step_nmm _ _ _ _ _ _ _ Hne Hm E) as Hm'.
    assert (Hi' : ms_ign m' = ms_ign m).
    { unfold match_step in E. step_cases E; cbn [ms_ign ms_nmm] in *;
        rewrite ?Hm in *; try reflexivity; discriminate. }
    eapply (IH (tl_if ae ex) (tl_if as_ (se :: sq)) more m' r anys t r' anys' t' fuel'); auto.
    + destruct ae; cbn; auto. destruct ex; cbn; auto. inversion Hex; auto.
    + congruence.
    + destruct as_; cbn in *; exact HE'.
Qed.

(** If more keys would complete or continue the expression, the keys so far are not
    rejected. *)
Theorem match_prefix_not_rejected ex sq more r' anys' t' r anys t :
  no_nmm ex ->
  match_keys ex (sq ++ more) = Some (r', anys', t') -> r' <> NoMatch ->
  match_keys ex sq = Some (r, anys, t) -> r <> NoMatch.
Proof.
  unfold match_keys. intros Hex H' Hr' H ->. apply Hr'.
  exact (match_loop_prefix _ ex sq more ms_init _ _ _ _ _ _ _ Hex eq_refl eq_refl H H' eq_refl).
Qed.
