(** Virtual keys and connections of keymapperctl in the client (C44, C45, C49). *)
From Coq Require Import String Ascii List Arith NArith ZArith Bool Lia Sorted.
From Verif Require Import Base Key Text KeyNames ParseSeq Stage Config Serial Client ClientSpec ClientProofs ClientContexts.
Import ListNotations.
Local Open Scope N_scope.

(** * Lists *)
Lemma nth_update_at {A} (f : A -> A) l : forall i j, nth_error (update_at i f l) j =
  if Nat.eqb i j then option_map f (nth_error l j) else nth_error l j.
Proof.
  induction l as [|x l IH]; intros i j.
  - destruct i, j; cbn; try reflexivity; destruct (Nat.eqb i j); reflexivity.
  - destruct i as [|i], j as [|j]; try reflexivity. cbn [update_at nth_error Nat.eqb]. apply IH.
Qed.
Lemma length_update_at {A} (f : A -> A) l : forall i, length (update_at i f l) = length l.
Proof. induction l as [|x l IH]; intros [|i]; cbn; auto. Qed.

Lemma reported_snoc k t e : reported k (t ++ [e]) = reported_step k (reported k t) e.
Proof. unfold reported. rewrite fold_left_app. reflexivity. Qed.
Lemma connections_snoc t e : connections (t ++ [e]) = conns_step (connections t) e.
Proof. unfold connections. rewrite fold_left_app. reflexivity. Qed.
Lemma used_mono t t' : last_key_used t -> last_key_used (t ++ t').
Proof.
  intros [[st H]|(s & st & H)]; [left; exists st|right; exists s, st]; apply in_or_app; left; exact H.
Qed.
Lemma answers_snoc t e : answers_right t ->
  (forall s k st, e = FAnswer s (AVirtual k st) -> is_virtual_key k = true -> k <> last_virtual ->
     st = if reported k t then Down else Up) -> answers_right (t ++ [e]).
Proof.
  intros H HE p s k st q E VK NL. apply snoc_split in E. destruct E as [(_ & E1 & E2)|(q' & _ & E)].
  - subst p. exact (HE s k st E2 VK NL).
  - exact (H p s k st q' E VK NL).
Qed.

Definition ids (l : list control) : conns := map (fun x => (ct_socket x, ct_id x)) l.

(** * The invariant *)
Record V (c : client) : Prop := mkV {
  v_len : length (cl_down c) = table_size;
  v_down : forall k, is_virtual_key k = true -> k <> last_virtual ->
    nth_error (cl_down c) (N.to_nat (k - first_virtual)) = Some (reported k (cl_trace c));
  v_ans : answers_right (cl_trace c);
  v_ub : cl_ub c = true -> last_key_used (cl_trace c)
}.
Record W (c : client) : Prop := mkW {
  w_sorted : StronglySorted N.lt (map ct_socket (cl_controls c));
  w_conn : forall p, In p (connections (cl_trace c)) <-> In p (ids (cl_controls c));
  w_ids : forall s1 s2 id, In (s1, id) (ids (cl_controls c)) -> In (s2, id) (ids (cl_controls c)) ->
    trivial_id id = false -> s1 = s2
}.
Definition inv (c : client) : Prop := V c /\ W c.

(** Effects which do not concern virtual keys and connections. *)
Definition neutral (e : ceffect) : Prop :=
  match e with
  | FGot (DVirtual _ _) | FLost | FAccepted _ | FClosed _ | FAsked _ (QInstance _) => False
  | FAnswer _ (AVirtual k _) => is_virtual_key k = false
  | _ => True
  end.
Record keep (c c' : client) : Prop := Keep {
  k_trace : exists es, cl_trace c' = cl_trace c ++ es /\ Forall neutral es;
  k_down : cl_down c' = cl_down c;
  k_ub : cl_ub c' = cl_ub c;
  k_ids : ids (cl_controls c') = ids (cl_controls c)
}.
Lemma ids_sockets l : map ct_socket l = map fst (ids l).
Proof. unfold ids. rewrite map_map. reflexivity. Qed.
Lemma keep_refl c : keep c c.
Proof. split; try reflexivity. exists []. rewrite app_nil_r. auto. Qed.
Lemma keep_trans a b c : keep a b -> keep b c -> keep a c.
Proof.
  intros [(x & Tx & Fx) A B C] [(y & Ty & Fy) A' B' C']. split; try congruence.
  exists (x ++ y). rewrite Ty, Tx, app_assoc. split; [reflexivity|]. apply Forall_app. auto.
Qed.
Lemma keep_emit e c : neutral e -> keep c (emit e c).
Proof. intro H. split; try reflexivity. exists [e]. split; [reflexivity|]. constructor; [exact H|constructor]. Qed.
Lemma keep_loads c c' : loads c c' -> keep c c'.
Proof.
  intros [(es & T & F) _ _ _ _ A B C]. split; try congruence. exists es. split; [exact T|].
  eapply Forall_impl; [|exact F]. intros [] Q; try contradiction. exact I.
Qed.

Lemma reported_neutral k es : Forall neutral es -> forall t, reported k (t ++ es) = reported k t.
Proof.
  induction 1 as [|e es H F IH]; intro t; [rewrite app_nil_r; reflexivity|].
  change (t ++ e :: es) with (t ++ [e] ++ es). rewrite app_assoc, IH, reported_snoc.
  destruct e as [| | |[]| | | | | | | |]; try contradiction; reflexivity.
Qed.
Lemma connections_neutral es : Forall neutral es -> forall t, connections (t ++ es) = connections t.
Proof.
  induction 1 as [|e es H F IH]; intro t; [rewrite app_nil_r; reflexivity|].
  change (t ++ e :: es) with (t ++ [e] ++ es). rewrite app_assoc, IH, connections_snoc.
  destruct e as [| | | | |s m| | | | | |]; try destruct m; try contradiction; reflexivity.
Qed.
Lemma answers_neutral es : Forall neutral es -> forall t, answers_right t -> answers_right (t ++ es).
Proof.
  induction 1 as [|e es H F IH]; intros t A; [rewrite app_nil_r; exact A|].
  change (t ++ e :: es) with (t ++ [e] ++ es). rewrite app_assoc. apply IH. apply answers_snoc; [exact A|].
  intros s k st E VK. subst e. cbn [neutral] in H. congruence.
Qed.
Lemma inv_keep c c' : keep c c' -> inv c -> inv c'.
Proof.
  intros [(es & T & F) A B C] [[V1 V2 V3 V4] [W1 W2 W3]]. rewrite ids_sockets in W1.
  split; split; rewrite ?ids_sockets, ?T, ?A, ?B, ?C; try assumption.
  - intros k VK NL. rewrite reported_neutral by exact F. apply V2; assumption.
  - apply answers_neutral; assumption.
  - intro U. apply used_mono. apply V4. exact U.
  - intro p. rewrite connections_neutral by exact F. apply W2.
Qed.

(** * The table of virtual keys *)
Lemma virtual_index k : is_virtual_key k = true -> k <> last_virtual ->
  (N.to_nat (k - first_virtual) < table_size)%nat.
Proof.
  unfold is_virtual_key, in_range, table_size. intros H NL. apply andb_true_iff in H. destruct H as [A B].
  apply N.leb_le in A. apply N.leb_le in B. unfold first_virtual, last_virtual in *. lia.
Qed.
Lemma virtual_inj k k' : is_virtual_key k = true -> is_virtual_key k' = true ->
  N.to_nat (k - first_virtual) = N.to_nat (k' - first_virtual) -> k = k'.
Proof.
  unfold is_virtual_key, in_range. intros H H' E. apply andb_true_iff in H. apply andb_true_iff in H'.
  destruct H as [A B], H' as [A' B']. apply N.leb_le in A. apply N.leb_le in B.
  apply N.leb_le in A'. apply N.leb_le in B'. lia.
Qed.

Lemma state_inv s k c : inv c -> inv (send_virtual_key_state s k c) /\
  cl_controls (send_virtual_key_state s k c) = cl_controls c.
Proof.
  intros HI. unfold send_virtual_key_state, get_virtual_key_state.
  destruct (is_virtual_key k) eqn:VK.
  2: { split; [|reflexivity]. eapply inv_keep; [apply keep_emit; exact VK|exact HI]. }
  pose proof HI as [[V1 V2 V3 V4] [W1 W2 W3]].
  destruct (N.eq_dec k last_virtual) as [EL|NL].
  - assert (NE : nth_error (cl_down c) (N.to_nat (k - first_virtual)) = None).
    { apply nth_error_None. rewrite V1, EL. unfold table_size. lia. }
    rewrite NE. split; [|reflexivity]. split; split; cbn [answer emit cl_trace cl_down cl_ub cl_controls c_down];
      try assumption.
    + intros k' VK' NL'. rewrite reported_snoc. apply V2; assumption.
    + apply answers_snoc; [exact V3|]. intros ? k' ? E. injection E as <- <- <-. contradiction.
    + intros _. right. exists s, Up. apply in_or_app. right. left. congruence.
    + intro p. rewrite connections_snoc. apply W2.
  - rewrite (V2 k VK NL). split; [|reflexivity].
    split; split; cbn [answer emit cl_trace cl_down cl_ub cl_controls c_down]; try assumption.
    + intros k' VK' NL'. rewrite reported_snoc. apply V2; assumption.
    + apply answers_snoc; [exact V3|]. intros ? k' ? E. injection E as <- <- <-. reflexivity.
    + intro U. apply used_mono. apply V4. exact U.
    + intro p. rewrite connections_snoc. apply W2.
Qed.
Lemma notify_inv k l : forall c, inv c -> inv (snd (notify_loop k l c)) /\
  cl_controls (snd (notify_loop k l c)) = cl_controls c /\ ids (fst (notify_loop k l c)) = ids l.
Proof.
  induction l as [|x l IH]; intros c HI; cbn [notify_loop]; [auto|].
  destruct (ct_notify x =? k).
  - destruct (state_inv (ct_socket x) k c HI) as [A B]. destruct (IH _ A) as (I1 & I2 & I3).
    destruct (notify_loop k l (send_virtual_key_state (ct_socket x) k c)) as [r c']. cbn [fst snd] in *.
    split; [exact I1|]. split; [congruence|]. unfold ids in *. cbn [map ct_socket ct_id]. f_equal. exact I3.
  - destruct (IH _ HI) as (I1 & I2 & I3). destruct (notify_loop k l c) as [r c']. cbn [fst snd] in *.
    split; [exact I1|]. split; [exact I2|]. unfold ids in *. cbn [map]. f_equal. exact I3.
Qed.
Lemma controls_keep l c : ids l = ids (cl_controls c) -> keep c (c_controls l c).
Proof. intro H. split; try reflexivity; [|exact H]. exists []. rewrite app_nil_r. auto. Qed.

Lemma changed_inv k st c : inv c -> inv (on_virtual_key_state_changed k st (emit (FGot (DVirtual k st)) c)).
Proof.
  intros [[V1 V2 V3 V4] [W1 W2 W3]]. unfold on_virtual_key_state_changed.
  set (g := emit (FGot (DVirtual k st)) c).
  assert (HW : forall d u, W (c_down d u g)).
  { intros d u. split; cbn [g c_down emit cl_trace cl_controls]; try assumption.
    intro p. rewrite connections_snoc. apply W2. }
  assert (AN : answers_right (cl_trace g)) by (apply answers_snoc; [exact V3|discriminate]).
  destruct (is_virtual_key k) eqn:VK.
  - set (c1 := if Nat.ltb _ _ then _ else _).
    assert (H1 : inv c1).
    { unfold c1. change (cl_down g) with (cl_down c). change (cl_ub g) with (cl_ub c).
      destruct (Nat.ltb _ (length (cl_down c))) eqn:LT.
      - apply Nat.ltb_lt in LT. split; [|apply HW]. split; cbn [c_down cl_down cl_ub cl_trace].
        + rewrite length_update_at. exact V1.
        + intros k' VK' NL'. rewrite nth_update_at. cbn [g emit cl_trace]. rewrite reported_snoc. cbn [reported_step].
          destruct (Nat.eqb_spec (N.to_nat (k - first_virtual)) (N.to_nat (k' - first_virtual))) as [E|E].
          * assert (k = k') by (apply virtual_inj; assumption). subst k'. rewrite N.eqb_refl, V2 by assumption.
            reflexivity.
          * destruct (N.eqb_spec k k') as [E'|E']; [subst k'; contradiction|]. apply V2; assumption.
        + exact AN.
        + intro U. apply used_mono. apply V4. exact U.
      - apply Nat.ltb_ge in LT.
        assert (EL : k = last_virtual).
        { destruct (N.eq_dec k last_virtual) as [E|E]; [exact E|]. pose proof (virtual_index k VK E). lia. }
        split; [|apply HW]. split; cbn [c_down cl_down cl_ub cl_trace].
        + exact V1.
        + intros k' VK' NL'. cbn [g emit cl_trace]. rewrite reported_snoc. cbn [reported_step].
          destruct (N.eqb_spec k k') as [E'|E']; [congruence|]. apply V2; assumption.
        + exact AN.
        + intros _. left. exists st. apply in_or_app. right. left. congruence. }
    clearbody c1. destruct (notify_inv k (cl_controls c1) c1 H1) as (I1 & I2 & I3).
    destruct (notify_loop k (cl_controls c1) c1) as [r c2]. cbn [fst snd] in *.
    eapply inv_keep; [|exact I1]. apply controls_keep. congruence.
  - split; [|split; cbn [g emit cl_trace cl_controls]; try assumption; intro p; rewrite connections_snoc; apply W2].
    split; cbn [g emit cl_trace cl_down cl_ub].
    + exact V1.
    + intros k' VK' NL'. rewrite reported_snoc. cbn [reported_step].
      destruct (N.eqb_spec k k') as [E'|E']; [congruence|]. apply V2; assumption.
    + exact AN.
    + intro U. apply used_mono. apply V4. exact U.
Qed.

(** * Connections *)
Lemma in_insert p x l : In p (ids (insert_control x l)) -> p = (ct_socket x, ct_id x) \/ In p (ids l).
Proof.
  induction l as [|y l IH]; cbn [insert_control]; [intros [H|[]]; auto|].
  destruct (ct_socket x <? ct_socket y); [intros [H|H]; auto|].
  destruct (ct_socket x =? ct_socket y); [auto|]. intros [H|H]; [right; left; exact H|].
  destruct (IH H); [auto|right; right; assumption].
Qed.
Lemma in_insert_old p x l : In p (ids l) -> In p (ids (insert_control x l)).
Proof.
  induction l as [|y l IH]; cbn [insert_control]; [intros []|]. intro H.
  destruct (ct_socket x <? ct_socket y); [right; exact H|].
  destruct (ct_socket x =? ct_socket y); [exact H|]. destruct H as [H|H]; [left; exact H|right; auto].
Qed.
Lemma sorted_insert x l : StronglySorted N.lt (map ct_socket l) ->
  StronglySorted N.lt (map ct_socket (insert_control x l)) /\
  (~ In (ct_socket x) (map ct_socket l) -> In (ct_socket x, ct_id x) (ids (insert_control x l))) /\
  (In (ct_socket x) (map ct_socket l) -> insert_control x l = l).
Proof.
  induction l as [|y l IH]; intro H; cbn [insert_control].
  - split; [repeat constructor|]. split; [intros _; left; reflexivity|intros []].
  - cbn [map] in H. inversion H as [|? ? H1 H2]; subst. destruct (IH H1) as (I1 & I2 & I3).
    destruct (N.ltb_spec (ct_socket x) (ct_socket y)) as [LT|GE].
    { split; [|split].
      - cbn [map]. constructor; [exact H|]. constructor; [exact LT|].
        eapply Forall_impl; [|exact H2]. intros a Q. lia.
      - intros _. left. reflexivity.
      - intro Q. exfalso. cbn [map] in Q. destruct Q as [Q|Q]; [lia|].
        rewrite Forall_forall in H2. specialize (H2 _ Q). lia. }
    destruct (N.eqb_spec (ct_socket x) (ct_socket y)) as [E|E].
    { split; [exact H|]. split; [|reflexivity]. intro Q. exfalso. apply Q. left. congruence. }
    split; [|split].
    + cbn [map]. constructor; [exact I1|]. apply Forall_forall. intros a Q. rewrite ids_sockets in Q.
      apply in_map_iff in Q. destruct Q as (p & <- & Q). apply in_insert in Q. destruct Q as [Q|Q].
      * subst p. cbn [fst]. lia.
      * rewrite Forall_forall in H2. apply H2. rewrite ids_sockets. apply in_map. exact Q.
    + intro Q. right. apply I2. intro Q'. apply Q. right. exact Q'.
    + intros [Q|Q]; [congruence|]. rewrite (I3 Q). reflexivity.
Qed.
Lemma sorted_functional l s a b : StronglySorted N.lt (map ct_socket l) ->
  In (s, a) (ids l) -> In (s, b) (ids l) -> a = b.
Proof.
  induction l as [|y l IH]; intros H A B; [destruct A|].
  cbn [map] in H. inversion H as [|? ? H1 H2]; subst. rewrite Forall_forall in H2.
  assert (N : forall z, In (s, z) (ids l) -> ct_socket y < s).
  { intros z Q. apply H2. rewrite ids_sockets. apply (in_map fst) in Q. exact Q. }
  destruct A as [A|A], B as [B|B].
  - congruence.
  - specialize (N _ B). injection A as A1 A2. lia.
  - specialize (N _ A). injection B as B1 B2. lia.
  - eauto.
Qed.
Lemma sorted_filter f l : StronglySorted N.lt (map ct_socket l) ->
  StronglySorted N.lt (map ct_socket (List.filter f l)).
Proof.
  induction l as [|y l IH]; intro H; [constructor|]. cbn [map] in H. inversion H as [|? ? H1 H2]; subst.
  cbn [List.filter]. destruct (f y); [|auto]. cbn [map]. constructor; [auto|].
  apply Forall_forall. intros a Q. apply in_map_iff in Q. destruct Q as (z & <- & Q).
  apply filter_In in Q. rewrite Forall_forall in H2. apply H2. apply in_map. apply Q.
Qed.
Lemma in_ids_filter (g : N * text -> bool) l p :
  In p (ids (List.filter (fun x => g (ct_socket x, ct_id x)) l)) <-> In p (ids l) /\ g p = true.
Proof.
  unfold ids. rewrite !in_map_iff. split.
  - intros (x & <- & Q). apply filter_In in Q. split; [exists x; split; [reflexivity|apply Q]|apply Q].
  - intros ((x & <- & Q) & H). exists x. split; [reflexivity|]. apply filter_In. auto.
Qed.

Lemma V_same c c' : cl_down c' = cl_down c -> cl_ub c' = cl_ub c -> 
  (exists es, cl_trace c' = cl_trace c ++ es /\
     Forall (fun e => match e with FGot (DVirtual _ _) | FLost | FAnswer _ _ => False | _ => True end) es) ->
  V c -> V c'.
Proof.
  intros A B (es & T & F) [V1 V2 V3 V4].
  assert (R : forall k, reported k (cl_trace c ++ es) = reported k (cl_trace c)).
  { intro k. clear T. revert F. induction es as [|e es IH] using rev_ind; intro F; [rewrite app_nil_r; reflexivity|].
    apply Forall_app in F. destruct F as [F1 F2]. inversion F2; subst.
    rewrite app_assoc, reported_snoc, (IH F1). destruct e as [| | |[]| | | | | | | |]; try contradiction; reflexivity. }
  split; rewrite ?T, ?A, ?B; try assumption.
  - intros k VK NL. rewrite R. apply V2; assumption.
  - clear T R. revert F. induction es as [|e es IH] using rev_ind; intro F; [rewrite app_nil_r; exact V3|].
    apply Forall_app in F. destruct F as [F1 F2]. inversion F2; subst.
    rewrite app_assoc. apply answers_snoc; [auto|]. intros ? ? ? E. subst e. contradiction.
  - intro U. apply used_mono. apply V4. exact U.
Qed.

Lemma accept_inv s c : inv c -> inv (accept_control s c).
Proof.
  intros [HV [W1 W2 W3]]. unfold accept_control. split.
  { eapply V_same; [| | |exact HV]; try reflexivity. exists [FAccepted s]. split; [reflexivity|].
    constructor; [exact I|constructor]. }
  set (x := Ctl s [] 0 false). destruct (sorted_insert x (cl_controls c) W1) as (I1 & I2 & I3).
  assert (M : existsb (fun x => fst x =? s) (connections (cl_trace c)) = true <-> In s (map ct_socket (cl_controls c))).
  { rewrite existsb_exists, ids_sockets, in_map_iff. split.
    - intros (p & A & B). apply N.eqb_eq in B. exists p. split; [exact B|apply W2; exact A].
    - intros (p & A & B). exists p. split; [apply W2; exact B|apply N.eqb_eq; exact A]. }
  split; cbn [emit c_controls cl_trace cl_controls]; [exact I1| |].
  - intro p. rewrite connections_snoc. cbn [conns_step].
    destruct (existsb _ _) eqn:E.
    + rewrite I3 by (apply M; reflexivity). apply W2.
    + assert (NI : ~ In s (map ct_socket (cl_controls c))) by (rewrite <- M; congruence).
      rewrite in_app_iff, W2. split.
      * intros [H|[H|[]]]; [apply in_insert_old; exact H|]. subst p. apply I2. exact NI.
      * intro H. apply in_insert in H. destruct H as [H|H]; [right; left; symmetry; exact H|left; exact H].
  - intros s1 s2 id A B NT. apply in_insert in A. apply in_insert in B.
    destruct A as [A|A]; [injection A as -> ->; discriminate NT|].
    destruct B as [B|B]; [injection B as -> ->; discriminate NT|]. eapply W3; eassumption.
Qed.

(** Closing the connections in [gone]. *)
Lemma closed_trace l : forall c,
  cl_trace (fold_left (fun c x => emit (FClosed (ct_socket x)) c) l c) =
    cl_trace c ++ map (fun x => FClosed (ct_socket x)) l /\
  cl_controls (fold_left (fun c x => emit (FClosed (ct_socket x)) c) l c) = cl_controls c /\
  cl_down (fold_left (fun c x => emit (FClosed (ct_socket x)) c) l c) = cl_down c /\
  cl_ub (fold_left (fun c x => emit (FClosed (ct_socket x)) c) l c) = cl_ub c.
Proof.
  induction l as [|x l IH]; intro c; cbn [fold_left map].
  - rewrite app_nil_r. auto.
  - destruct (IH (emit (FClosed (ct_socket x)) c)) as (A & B & C & D). rewrite A, B, C, D.
    cbn [emit cl_trace]. rewrite <- app_assoc. auto.
Qed.
Lemma connections_closed (l : list control) : forall t p,
  In p (connections (t ++ map (fun x => FClosed (ct_socket x)) l)) <->
  In p (connections t) /\ ~ In (fst p) (map ct_socket l).
Proof.
  induction l as [|x l IH]; intros t p; cbn [map].
  - rewrite app_nil_r. cbn [In]. tauto.
  - change (t ++ FClosed (ct_socket x) :: map (fun x => FClosed (ct_socket x)) l)
      with (t ++ [FClosed (ct_socket x)] ++ map (fun x => FClosed (ct_socket x)) l).
    rewrite app_assoc, IH, connections_snoc. cbn [conns_step In]. rewrite filter_In, negb_true_iff, N.eqb_neq.
    split; intros; intuition congruence.
Qed.

Lemma close_inv s c : inv c ->
  inv (emit (FClosed s) (c_controls (List.filter (fun x => negb (ct_socket x =? s)) (cl_controls c)) c)).
Proof.
  intros [HV [W1 W2 W3]]. split.
  { eapply V_same; [| | |exact HV]; try reflexivity. exists [FClosed s]. split; [reflexivity|].
    constructor; [exact I|constructor]. }
  assert (M : forall p, In p (ids (List.filter (fun x => negb (ct_socket x =? s)) (cl_controls c))) <->
                        In p (ids (cl_controls c)) /\ negb (fst p =? s) = true).
  { intro p. apply (in_ids_filter (fun p => negb (fst p =? s))). }
  split; cbn [emit c_controls cl_trace cl_controls].
  - apply sorted_filter. exact W1.
  - intro p. rewrite connections_snoc. cbn [conns_step]. rewrite M, filter_In, W2. reflexivity.
  - intros s1 s2 id A B. apply M in A. apply M in B. apply W3; tauto.
Qed.

(** A request for an instance id. *)
Lemma in_ids_update s id l p :
  In p (ids (update_control s (fun x => Ctl (ct_socket x) id (ct_notify x) (ct_info x)) l)) <->
  (In p (ids l) /\ fst p <> s) \/ (p = (s, id) /\ In s (map ct_socket l)).
Proof.
  unfold ids, update_control. rewrite map_map, !in_map_iff. split.
  - intros (x & E & H). destruct (N.eqb_spec (ct_socket x) s) as [Q|Q].
    + right. cbn [ct_socket ct_id] in E. subst. split; [reflexivity|]. eauto.
    + left. split; [eauto|]. subst p. exact Q.
  - intros [((x & E & H) & NE)|(E & H)].
    + exists x. destruct (N.eqb_spec (ct_socket x) s) as [Q|Q]; [subst p; contradiction|]. auto.
    + destruct H as (x & Q & H). exists x. rewrite Q, N.eqb_refl.
      cbn [ct_socket ct_id]. split; [congruence|exact H].
Qed.
Lemma sockets_update s f l : (forall x, ct_socket (f x) = ct_socket x) ->
  map ct_socket (update_control s f l) = map ct_socket l.
Proof.
  intro H. unfold update_control. rewrite map_map. apply map_ext. intro x.
  destruct (ct_socket x =? s); [apply H|reflexivity].
Qed.
Lemma get_control_in s l x : get_control s l = Some x -> In x l /\ ct_socket x = s.
Proof. unfold get_control. intro H. apply find_some in H. rewrite N.eqb_eq in H. exact H. Qed.
Lemma get_control_none s l : get_control s l = None -> ~ In s (map ct_socket l).
Proof.
  unfold get_control. intros H Q. apply in_map_iff in Q. destruct Q as (x & E & Q).
  apply (find_none _ _ H) in Q. rewrite N.eqb_neq in Q. contradiction.
Qed.

Lemma instance_inv s id c : inv c -> inv (on_set_instance_id s id (emit (FAsked s (QInstance id)) c)).
Proof.
  intros [HV [W1 W2 W3]]. unfold on_set_instance_id. cbn [emit cl_controls].
  set (g := emit (FAsked s (QInstance id)) c).
  assert (VG : forall c' es, cl_down c' = cl_down c -> cl_ub c' = cl_ub c ->
     cl_trace c' = cl_trace c ++ [FAsked s (QInstance id)] ++ map (fun x => FClosed (ct_socket x)) es -> V c').
  { intros c' es A B T. eapply V_same; [exact A|exact B| |exact HV]. eexists. split; [exact T|].
    apply Forall_app. split; [constructor; [exact I|constructor]|]. apply Forall_forall. intros e Q.
    apply in_map_iff in Q. destruct Q as (x & <- & _). exact I. }
  assert (CG : forall p, In p (connections (cl_trace c ++ [FAsked s (QInstance id)])) <->
               (In p (ids (cl_controls c)) /\ fst p <> s) \/ (p = (s, id) /\ In s (map ct_socket (cl_controls c)))).
  { intro p. rewrite connections_snoc. cbn [conns_step]. rewrite in_map_iff. split.
    - intros (x & E & Q). apply W2 in Q. destruct (N.eqb_spec (fst x) s) as [E'|E'].
      + right. split; [congruence|]. rewrite ids_sockets. apply in_map_iff. eauto.
      + left. subst p. auto.
    - intros [(Q & NE)|(E & Q)].
      + exists p. apply N.eqb_neq in NE. rewrite NE. split; [reflexivity|]. apply W2. exact Q.
      + rewrite ids_sockets in Q. apply in_map_iff in Q. destruct Q as (x & E' & Q). exists x.
        rewrite E', N.eqb_refl. split; [congruence|]. apply W2. exact Q. }
  destruct (get_control s (cl_controls c)) as [x|] eqn:GC.
  2: { apply get_control_none in GC. split; [apply (VG g []); reflexivity|].
       split; cbn [g emit cl_trace cl_controls]; try assumption. intro p. rewrite CG. split.
       - intros [[Q _]|[_ Q]]; [exact Q|contradiction].
       - intro Q. left. split; [exact Q|]. intro E. apply GC. rewrite ids_sockets. apply in_map_iff. eauto. }
  apply get_control_in in GC. destruct GC as [XI XS].
  assert (XP : In (s, ct_id x) (ids (cl_controls c))).
  { unfold ids. apply in_map_iff. exists x. rewrite XS. auto. }
  assert (SI : In s (map ct_socket (cl_controls c))) by (rewrite <- XS; apply in_map; exact XI).
  destruct (text_eqb (ct_id x) id) eqn:EQ.
  { apply text_eqb_eq in EQ. split; [apply (VG g []); reflexivity|].
    split; cbn [g emit cl_trace cl_controls]; try assumption. intro p. rewrite CG. split.
    - intros [[Q _]|[E _]]; [exact Q|]. subst p. rewrite <- EQ. exact XP.
    - intro Q. destruct (N.eq_dec (fst p) s) as [E|E]; [|left; auto]. right. split; [|exact SI].
      destruct p as [s' i]. cbn [fst] in E. subst s'. f_equal. rewrite <- EQ.
      eapply sorted_functional; eassumption. }
  apply text_eqb_neq in EQ. unfold disconnect_by_instance_id.
  destruct (trivial_id id) eqn:TR.
  { split; [apply (VG _ []); reflexivity|].
    split; cbn [g c_controls emit cl_trace cl_controls].
    - rewrite sockets_update by reflexivity. exact W1.
    - intro p. rewrite CG, in_ids_update. reflexivity.
    - intros s1 s2 i A B NT. apply in_ids_update in A. apply in_ids_update in B.
      destruct A as [[A _]|[A _]]; [|injection A as -> ->; congruence].
      destruct B as [[B _]|[B _]]; [|injection B as -> ->; congruence]. eapply W3; eassumption. }
  set (gone := List.filter (fun x => text_eqb (ct_id x) id) (cl_controls g)).
  set (left_ := List.filter (fun x => negb (text_eqb (ct_id x) id)) (cl_controls g)).
  destruct (closed_trace gone (c_controls left_ g)) as (T1 & T2 & T3 & T4).
  set (c2 := fold_left _ gone _) in *. clearbody c2. cbn [c_controls cl_trace cl_controls cl_down cl_ub] in T1, T2, T3, T4.
  assert (ML : forall p, In p (ids left_) <-> In p (ids (cl_controls c)) /\ snd p <> id).
  { intro p. unfold left_. change (cl_controls g) with (cl_controls c).
    rewrite (in_ids_filter (fun p => negb (text_eqb (snd p) id))), negb_true_iff, text_eqb_neq. reflexivity. }
  assert (MG : forall p, In p (ids (cl_controls c)) -> (In (fst p) (map ct_socket gone) <-> snd p = id)).
  { intros [s' i] Q. rewrite ids_sockets. unfold gone. change (cl_controls g) with (cl_controls c).
    rewrite in_map_iff. cbn [fst snd]. split.
    - intros ([s'' i'] & E & Q'). cbn [fst] in E. subst s''.
      rewrite (in_ids_filter (fun p => text_eqb (snd p) id)) in Q'. destruct Q' as [Q' E]. cbn [snd] in E.
      apply text_eqb_eq in E. subst i'. eapply sorted_functional; eassumption.
    - intros ->. exists (s', id). split; [reflexivity|].
      rewrite (in_ids_filter (fun p => text_eqb (snd p) id)). split; [exact Q|]. apply text_eqb_eq. reflexivity. }
  assert (SL : In s (map ct_socket left_)).
  { rewrite ids_sockets. apply in_map_iff. exists (s, ct_id x). split; [reflexivity|]. apply ML. auto. }
  assert (SG : ~ In s (map ct_socket gone)).
  { intro Q. apply (MG _ XP) in Q. exact (EQ Q). }
  split.
  { apply (VG _ gone); cbn [c_controls cl_down cl_ub cl_trace]; [exact T3|exact T4|].
    rewrite T1. cbn [g emit cl_trace]. rewrite <- app_assoc. reflexivity. }
  split; cbn [c_controls cl_trace cl_controls]; rewrite T2.
  - rewrite sockets_update by reflexivity. apply sorted_filter. exact W1.
  - intro p. rewrite T1, connections_closed. cbn [g emit cl_trace]. rewrite CG, in_ids_update, ML. split.
    + intros [[(Q & NE)|(E & _)] NG]; [|right; auto]. left. split; [|exact NE]. split; [exact Q|].
      intro E. apply NG. apply (MG _ Q). exact E.
    + intros [((Q & NI) & NE)|(E & _)].
      * split; [left; auto|]. intro G. apply NI. apply (MG _ Q). exact G.
      * split; [right; auto|]. subst p. exact SG.
  - intros s1 s2 i A B NT. apply in_ids_update in A. apply in_ids_update in B.
    destruct A as [[A NA]|[A _]], B as [[B NB]|[B _]].
    + apply ML in A. apply ML in B. eapply W3; [apply A|apply B|exact NT].
    + injection B as -> ->. apply ML in A. cbn [snd] in A. exfalso. apply (proj2 A). reflexivity.
    + injection A as -> ->. apply ML in B. cbn [snd] in B. exfalso. apply (proj2 B). reflexivity.
    + congruence.
Qed.
Lemma lost_inv c : inv c -> inv (on_server_disconnected c).
Proof.
  intros [[V1 V2 V3 V4] _]. unfold on_server_disconnected.
  split; split; cbn [emit c_controls c_aliases c_down cl_trace cl_down cl_ub cl_controls].
  - apply repeat_length.
  - intros k VK NL. rewrite reported_snoc. cbn [reported_step]. unfold no_keys_down.
    rewrite (nth_error_nth' _ false) by (rewrite repeat_length; apply virtual_index; assumption).
    rewrite nth_repeat. reflexivity.
  - apply answers_snoc; [exact V3|discriminate].
  - intro U. apply used_mono. apply V4. exact U.
  - constructor.
  - intro p. rewrite connections_snoc. reflexivity.
  - intros ? ? ? [].
Qed.

(** * All operations *)
Section Client.
Variable search : text -> text -> bool.
Variable typer : text -> list stroke.
Variable key_name : key -> option text.
Variable system : text.
Variable sent : nat -> bool.
Variable focus : nat -> option window.
Variable disk : nat -> files.

Notation send := (send sent).
Notation update_file := (update_file disk).
Notation load_config := (load_config disk).
Notation update_active_contexts := (update_active_contexts search focus).
Notation send_config := (send_config search sent focus).
Notation on_control_message := (on_control_message search typer sent focus disk).
Notation on_server_message := (on_server_message key_name system).
Notation loop_turn := (loop_turn search typer key_name system sent focus disk).
Notation client_step := (client_step search typer key_name system sent focus disk).
Notation client_run := (client_run search typer key_name system sent focus disk).
Notation client_main := (client_main search typer key_name system sent focus disk).

Lemma keep_send m c : keep c (snd (send m c)).
Proof.
  unfold Client.send. destruct (negb (cl_broken c) && sent (cl_sends c)); cbn [snd].
  - eapply keep_trans; [|apply keep_emit; exact I]. split; try reflexivity. exists []. rewrite app_nil_r. auto.
  - split; try reflexivity. exists []. rewrite app_nil_r. auto.
Qed.
Lemma keep_update c : keep c (snd (update_active_contexts c)).
Proof.
  unfold Client.update_active_contexts. destruct (cl_active c); cbn [negb]; [|apply keep_refl].
  assert (N : forall w n c, keep c (c_window w n c)).
  { intros w n d. split; try reflexivity. exists []. rewrite app_nil_r. auto. }
  assert (M : forall l c, keep c (c_contexts l c)).
  { intros l d. split; try reflexivity. exists []. rewrite app_nil_r. auto. }
  set (c1 := match focus (cl_focus c) with
             | Some w => emit (FWindow w) (c_window w (S (cl_focus c)) c)
             | None => c_window (cl_window c) (S (cl_focus c)) c
             end).
  assert (K : keep c c1).
  { unfold c1. destruct (focus (cl_focus c)); [|apply N]. eapply keep_trans; [apply N|apply keep_emit; exact I]. }
  clearbody c1. cbv zeta.
  destruct (match focus (cl_focus c) with Some _ => false | None => _ end); [exact K|].
  destruct (zlist_eqb _ _); [exact K|]. cbn [snd]. eapply keep_trans; [exact K|apply M].
Qed.
Lemma keep_config c : keep c (snd (send_config c)).
Proof.
  unfold Client.send_config. pose proof (keep_send (SConfig (cl_config c)) c) as G.
  destruct (send (SConfig (cl_config c)) c) as [ok c1]. cbn [snd] in G. destruct ok; cbn [negb snd]; [|exact G].
  set (c2 := c_contexts _ _). assert (G2 : keep c c2) by (destruct G; split; assumption).
  destruct (cl_active c2); [|exact G2].
  eapply keep_trans; [exact G2|]. eapply keep_trans; [apply keep_update|]. apply keep_send.
Qed.
Lemma keep_toggle c : keep c (toggle_active search sent focus c).
Proof.
  unfold toggle_active. set (c1 := emit _ _).
  assert (G : keep c c1).
  { unfold c1. eapply (keep_trans c (c_active (negb (cl_active c)) c)); [|apply keep_emit; exact I].
    split; try reflexivity. exists []. rewrite app_nil_r. auto. }
  eapply keep_trans; [|apply keep_send]. eapply keep_trans; [exact G|].
  destruct (cl_active c1); [apply keep_update|]. split; try reflexivity. exists []. rewrite app_nil_r. auto.
Qed.
Lemma keep_reply t l : forall c, keep c (snd (reply_loop t l c)) /\
  cl_controls (snd (reply_loop t l c)) = cl_controls c /\ ids (snd (fst (reply_loop t l c))) = ids l.
Proof.
  induction l as [|x l IH]; intro c; cbn [reply_loop]; [split; [apply keep_refl|auto]|].
  set (c1 := if ct_info x then _ else c).
  assert (Q : keep c c1 /\ cl_controls c1 = cl_controls c).
  { unfold c1. destruct (ct_info x); [split; [apply keep_emit; exact I|reflexivity]|split; [apply keep_refl|reflexivity]]. }
  destruct Q as [Q1 Q2]. destruct (IH c1) as (A & B & C).
  destruct (reply_loop t l c1) as [[b r] c2]. cbn [fst snd] in *.
  split; [eapply keep_trans; eassumption|]. split; [congruence|]. unfold ids in *. cbn [map ct_socket ct_id].
  f_equal. exact C.
Qed.
Lemma server_inv m c : inv c -> inv (on_server_message m c).
Proof.
  intro HI. unfold Client.on_server_message. destruct m as [i|k st|k name id].
  - assert (G : inv (emit (FGot (DAction i)) c)) by (eapply inv_keep; [apply keep_emit; exact I|exact HI]).
    destruct (0 <=? i)%Z; [|exact G]. destruct (nth_error _ _); [|exact G].
    eapply inv_keep; [apply keep_emit; exact I|exact G].
  - apply changed_inv. exact HI.
  - assert (G : inv (emit (FGot (DNextKeyInfo k name id)) c)) by (eapply inv_keep; [apply keep_emit; exact I|exact HI]).
    set (c1 := emit _ c) in *. clearbody c1.
    destruct (keep_reply (key_info_text key_name system k name id (cl_window c1)) (cl_controls c1) c1) as (A & B & C).
    destruct (reply_loop _ (cl_controls c1) c1) as [[b l] c2]. cbn [fst snd] in *.
    assert (G2 : inv (c_controls l c2)).
    { eapply inv_keep; [|exact G]. eapply keep_trans; [exact A|]. apply controls_keep. congruence. }
    destruct b; [exact G2|]. eapply inv_keep; [apply keep_emit; exact I|exact G2].
Qed.
Lemma ids_update s f l : (forall x, ct_socket (f x) = ct_socket x /\ ct_id (f x) = ct_id x) ->
  ids (update_control s f l) = ids l.
Proof.
  intro H. unfold ids, update_control. rewrite map_map. apply map_ext. intro x.
  destruct (ct_socket x =? s); [|reflexivity]. destruct (H x) as [-> ->]. reflexivity.
Qed.
Lemma control_inv s m c : inv c -> inv (on_control_message s m c).
Proof.
  intro HI. unfold Client.on_control_message.
  destruct m as [n|n st|n|id|n| |t|t].
  4: { apply (instance_inv s id) in HI. apply state_inv. exact HI. }
  all: match goal with |- context [emit (FAsked ?s0 ?m) ?c0] =>
         assert (G : inv (emit (FAsked s0 m) c0)) by (eapply inv_keep; [apply keep_emit; exact I|eassumption]);
         set (c1 := emit (FAsked s0 m) c0) in *; clearbody c1 end.
  - apply state_inv. exact G.
  - apply state_inv. eapply inv_keep; [apply keep_send|exact G].
  - unfold on_toggle_requested. destruct (_ =? 0); [apply state_inv; exact G|].
    eapply inv_keep; [|exact G]. apply controls_keep. apply ids_update. auto.
  - pose proof (keep_loads _ _ (load_config_loads disk n c1)) as K. destruct (load_config n c1) as [ok c2]. cbn [snd] in K.
    assert (G2 : inv c2) by (eapply inv_keep; eassumption).
    assert (A : forall b c, inv c -> inv (answer_bool s b c)).
    { intros b d Hd. eapply inv_keep; [|exact Hd]. apply keep_emit. reflexivity. }
    destruct ok; [|apply A; exact G2]. pose proof (keep_config c2) as K2.
    destruct (send_config c2) as [ok c3]. cbn [snd] in K2. apply A. eapply inv_keep; eassumption.
  - eapply inv_keep; [apply keep_send|]. eapply inv_keep; [|exact G]. apply controls_keep. apply ids_update. auto.
  - destruct (parse_injected typer t) as [l|]; (eapply inv_keep; [apply keep_emit; reflexivity|]);
      [eapply inv_keep; [apply keep_send|]|]; exact G.
  - destruct (parse_injected typer t) as [l|]; (eapply inv_keep; [apply keep_emit; reflexivity|]);
      [eapply inv_keep; [apply keep_send|]|]; exact G.
Qed.
Lemma controls_inv s l : forall c, inv c -> inv (fold_left (fun c m => on_control_message s m c) l c).
Proof. induction l as [|m l IH]; intros c G; [exact G|]. cbn [fold_left]. apply IH, control_inv, G. Qed.
Lemma servers_inv l : forall c, inv c -> inv (fold_left (fun c m => on_server_message m c) l c).
Proof. induction l as [|m l IH]; intros c G; [exact G|]. cbn [fold_left]. apply IH, server_inv, G. Qed.
Lemma loop_inv reads l : forall c, inv c -> inv (control_loop search typer sent focus disk reads l c).
Proof.
  induction l as [|s l IH]; intros c G; cbn [control_loop]; [exact G|].
  destruct (get_control s (cl_controls c)); [|auto]. destruct (reads s) as [ms ok]. apply IH.
  pose proof (controls_inv s ms c G) as G1. destruct ok; [exact G1|]. apply close_inv. exact G1.
Qed.
Lemma turn_inv t c : inv c -> inv (snd (loop_turn t c)).
Proof.
  intro G. unfold Client.loop_turn.
  assert (U : exists b c1, (if tu_auto t then update_file true c else (false, c)) = (b, c1) /\ inv c1).
  { destruct (tu_auto t); [|exists false, c; auto].
    pose proof (keep_loads _ _ (update_file_loads disk true c)) as L. destruct (update_file true c) as [b c1].
    exists b, c1. split; [reflexivity|]. eapply inv_keep; eassumption. }
  destruct U as (b & c1 & E & G1). rewrite E. clear E.
  assert (U : exists ok c2, (if b then send_config c1 else (true, c1)) = (ok, c2) /\ inv c2).
  { destruct b; [|exists true, c1; auto]. pose proof (keep_config c1) as L.
    destruct (send_config c1) as [ok c2]. exists ok, c2. split; [reflexivity|]. eapply inv_keep; eassumption. }
  destruct U as (ok & c2 & E & G2). rewrite E. clear E. destruct ok; cbn [negb snd]; [|exact G2].
  pose proof (keep_update c2) as L. destruct (update_active_contexts c2) as [b' c3]. cbn [snd] in L.
  assert (G3 : inv c3) by (eapply inv_keep; eassumption).
  assert (U : exists ok c4, (if b' then send_active_contexts sent c3 else (true, c3)) = (ok, c4) /\ inv c4).
  { destruct b'; [|exists true, c3; auto]. pose proof (keep_send (SActive (cl_active_contexts c3)) c3) as L'.
    unfold Client.send_active_contexts. destruct (send (SActive (cl_active_contexts c3)) c3) as [ok c4].
    exists ok, c4. split; [reflexivity|]. eapply inv_keep; eassumption. }
  destruct U as (ok & c4 & E & G4). rewrite E. clear E. destruct ok; cbn [negb snd]; [|exact G4].
  pose proof (servers_inv (fst (tu_server t)) c4 G4) as G5.
  destruct (snd (tu_server t)); cbn [negb snd]; [|exact G5]. apply loop_inv.
  destruct (tu_accept t); [apply accept_inv|]; exact G5.
Qed.
Lemma connect_inv c : inv c -> inv (snd (connect search sent focus c)).
Proof.
  intro G. unfold connect. eapply inv_keep; [apply keep_config|]. eapply inv_keep; [|exact G].
  split; try reflexivity. exists []. rewrite app_nil_r. auto.
Qed.
Lemma step_inv s c : inv c -> inv (snd (client_step s c)).
Proof.
  intro G. destruct s as [t| | |]; cbn [Client.client_step snd].
  - pose proof (turn_inv t c G) as H. destruct (loop_turn t c) as [ok c1]. cbn [snd] in H.
    destruct ok; [exact H|]. apply connect_inv, lost_inv, H.
  - eapply inv_keep; [apply keep_toggle|exact G].
  - eapply inv_keep; [apply keep_config|]. eapply inv_keep; [apply keep_loads, update_file_loads|exact G].
  - eapply inv_keep; [apply keep_send|exact G].
Qed.
Lemma run_inv l : forall c, inv c -> inv (client_run l c).
Proof.
  induction l as [|s l IH]; intros c G; cbn [Client.client_run]; [exact G|].
  pose proof (step_inv s c G) as H. destruct (client_step s c) as [ok c1]. destruct ok; [apply IH|]; exact H.
Qed.
Lemma new_inv : inv new_client.
Proof.
  split; split; cbn [new_client cl_down cl_trace cl_ub cl_controls].
  - apply repeat_length.
  - intros k VK NL. unfold no_keys_down.
    rewrite (nth_error_nth' _ false) by (rewrite repeat_length; apply virtual_index; assumption).
    rewrite nth_repeat. reflexivity.
  - intros p s k st q E. destruct p; discriminate E.
  - discriminate.
  - constructor.
  - intro p. reflexivity.
  - intros ? ? ? [].
Qed.
Lemma main_inv name l : inv (client_main name l).
Proof.
  unfold Client.client_main, start_client.
  assert (G : inv (snd (connect search sent focus (snd (load_config name new_client))))).
  { apply connect_inv. eapply inv_keep; [apply keep_loads, load_config_loads|apply new_inv]. }
  destruct (connect search sent focus (snd (load_config name new_client))) as [ok c].
  destruct ok; [apply run_inv|]; exact G.
Qed.
End Client.
