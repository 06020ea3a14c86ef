(** Which mapping is applied: order, commands, devices, contexts (C15, C16, C18, C19,
    C23, C24). *)
From Coq Require Import List Arith NArith ZArith Bool Lia Sorting.Permutation Sorted.
From Verif Require Import Base Key Match Stage MatchProofs StageFrame StageTerm StageSpec StageSafe
  StageOut StageRound StageRel.
Import ListNotations.
Local Open Scope N_scope.

(** * C15: the first mapping which decides *)

(** The mappings which are considered, in order. *)
Definition candidates (cs : list context) (act : list nat) (dev : Z) : list (nat * context * input) :=
  flat_map (fun ci => match nth_error cs ci with
                      | Some c => if device_matches_filter c dev
                                  then map (fun i => (ci, c, i)) (cx_inputs c) else []
                      | None => []
                      end) act.

Inductive decision : Type := DMight | DMatch (r : oref) (o : sequence).

(** What a mapping says about the buffered events [sq] and the history [h]; [first]
    means the whole buffer (and not only a prefix of it) is looked at. *)
Definition decides (cs : list context) (act : list nat) (first : bool) (sq h : sequence) (dev : Z)
                   (x : nat * context * input) : option decision :=
  let '(ci, c, i) := x in
  let nmm := is_nmm_mapping (in_seq i) in
  let applicable := negb nmm || (first && negb (match h with [] => true | _ => false end)
                                 && negb (dev =? any_device)%Z) in
  if applicable then
    match match_keys (in_seq i) (if nmm then h else sq) with
    | Some (Matched, _, _) => match find_output cs act ci c (in_out i) with
                              | LFound r o => Some (DMatch r o)
                              | _ => None
                              end
    | Some (MightMatch, _, _) => if first && negb nmm then Some DMight else None
    | _ => None
    end
  else None.

Fixpoint first_decision (f : nat * context * input -> option decision)
                        (l : list (nat * context * input)) : min_result :=
  match l with
  | [] => RNo
  | x :: r => match f x with
              | Some (DMatch ref o) => RMatch ref o (in_seq (snd x)) (fst (fst x))
              | Some DMight => RMight (in_seq (snd x)) (fst (fst x))
              | None => first_decision f r
              end
  end.

Section WithContexts.
Variable cs : list context.
Hypothesis Hwf : wf_config cs.

Lemma match_inputs_first : forall first sq dev u ci c l s act rest,
  act = s_active s -> nth_error cs ci = Some c -> in_bounds cs act -> incl l (cx_inputs c) ->
  no_none sq -> no_none (s_hist s) ->
  first_decision (decides cs act first sq (s_hist s) dev) (map (fun i => (ci, c, i)) l ++ rest) =
  match match_inputs cs first sq dev u ci c l s with
  | (_, Some r) => r
  | (_, None) => first_decision (decides cs act first sq (s_hist s) dev) rest
  end.
Proof.
  intros first sq dev u ci c l. induction l as [|i l IH]; intros s act rest Ha Hc Hb Hl Hq Hh; [reflexivity|].
  cbn [map app first_decision match_inputs]. unfold decides at 1.
  assert (Hi : wf_input c i).
  { destruct Hwf as [H _]. rewrite Forall_forall in H. specialize (H c (nth_error_In _ _ Hc)).
    unfold wf_context in H. rewrite Forall_forall in H. apply H. apply Hl. left. reflexivity. }
  assert (Hl' : incl l (cx_inputs c)) by (intros x Hx; apply Hl; right; exact Hx).
  set (nmm := is_nmm_mapping (in_seq i)).
  assert (Eskip : negb nmm || (first && negb (match s_hist s with [] => true | _ => false end) && negb (dev =? any_device)%Z)
    = negb (nmm && (negb first || match s_hist s with [] => true | _ => false end)) && negb (nmm && (dev =? any_device)%Z)).
  { destruct nmm, first, (s_hist s), (dev =? any_device)%Z; reflexivity. }
  rewrite Eskip. clear Eskip.
  destruct (nmm && (negb first || match s_hist s with [] => true | _ => false end)); cbn [negb andb];
    [apply IH; auto|].
  destruct (nmm && (dev =? any_device)%Z); cbn [negb]; [apply IH; auto|].
  destruct (match_keys (in_seq i) (if nmm then s_hist s else sq)) as [[[res anys] t]|] eqn:Em.
  2:{ exfalso. destruct (match_keys_total (in_seq i) (if nmm then s_hist s else sq)) as (? & ? & ? & ? & _ & _ & E);
      [destruct nmm; auto|congruence]. }
  set (s1 := ub_unless _ (set_any anys s)).
  assert (E1 : s_active s1 = s_active s /\ s_hist s1 = s_hist s).
  { unfold s1, ub_unless. destruct (in_seq i); auto. }
  destruct E1 as [E1 E2]. rewrite Ha.
  assert (Hrec : first_decision (decides cs (s_active s) first sq (s_hist s) dev) (map (fun i => (ci, c, i)) l ++ rest)
    = match match_inputs cs first sq dev u ci c l s1 with
      | (_, Some r) => r
      | (_, None) => first_decision (decides cs (s_active s) first sq (s_hist s) dev) rest
      end).
  { rewrite <- E2. apply IH; auto; congruence. }
  destruct res; [exact Hrec| |].
  - destruct (first && negb nmm); [reflexivity|exact Hrec].
  - rewrite E1. pose proof (find_output_ok cs Hwf (s_active s) ci c i) as Ho. subst act.
    specialize (Ho Hb Hi).
    destruct (find_output cs (s_active s) ci c (in_out i)); [reflexivity|exact Hrec|contradiction].
Qed.

Lemma match_contexts_first : forall first sq dev u act s,
  in_bounds cs (s_active s) -> in_bounds cs act -> no_none sq -> no_none (s_hist s) ->
  snd (match_contexts cs first sq dev u act s) =
  first_decision (decides cs (s_active s) first sq (s_hist s) dev) (candidates cs act dev).
Proof.
  intros first sq dev u. induction act as [|ci act IH]; intros s Ha Hb Hq Hh; [reflexivity|].
  inversion_clear Hb as [|? ? Hci Hb'].
  cbn [match_contexts candidates flat_map].
  destruct (nth_ok cs Hwf ci Hci) as [c [Hc _]]. rewrite Hc.
  destruct (device_matches_filter c dev); [|apply IH; auto].
  rewrite (match_inputs_first first sq dev u ci c (cx_inputs c) s (s_active s)); auto using incl_refl.
  pose proof (proj1 (match_inputs_frame cs first sq dev u ci c (cx_inputs c) s)) as Hf.
  destruct (match_inputs cs first sq dev u ci c (cx_inputs c) s) as [s1 [r|]]; [reflexivity|].
  cbn [fst] in Hf. assert (E : s_active s1 = s_active s /\ s_hist s1 = s_hist s) by (unfold same_match in Hf; intuition).
  destruct E as [E1 E2]. rewrite IH; rewrite ?E1, ?E2; auto.
Qed.

Theorem match_input_first : forall first sq dev u s,
  in_bounds cs (s_active s) -> no_none sq -> no_none (s_hist s) -> valid_device dev = true ->
  snd (match_input cs first sq dev u s) =
  first_decision (decides cs (s_active s) first sq (s_hist s) dev) (candidates cs (s_active s) dev).
Proof.
  intros first sq dev u s Ha Hq Hh Hd. unfold match_input. rewrite Hd. cbn [ub_unless].
  apply match_contexts_first; auto.
Qed.

End WithContexts.

(** [first_decision] in words. *)
Lemma first_decision_spec : forall f l,
  match first_decision f l with
  | RNo => Forall (fun x => f x = None) l
  | RMight inp ci => exists a c i b, l = a ++ (ci, c, i) :: b /\ in_seq i = inp /\
      Forall (fun x => f x = None) a /\ f (ci, c, i) = Some DMight
  | RMatch r o inp ci => exists a c i b, l = a ++ (ci, c, i) :: b /\ in_seq i = inp /\
      Forall (fun x => f x = None) a /\ f (ci, c, i) = Some (DMatch r o)
  end.
Proof.
  intros f. induction l as [|[[ci c] i] l IH]; [constructor|]. cbn [first_decision fst snd].
  destruct (f (ci, c, i)) as [[|r o]|] eqn:E.
  - exists [], c, i, l. auto.
  - exists [], c, i, l. auto.
  - destruct (first_decision f l) as [|inp ci'|r o inp ci'].
    + constructor; auto.
    + destruct IH as (a & c' & i' & b & -> & H1 & H2 & H3). exists ((ci, c, i) :: a), c', i', b. auto 6.
    + destruct IH as (a & c' & i' & b & -> & H1 & H2 & H3). exists ((ci, c, i) :: a), c', i', b. auto 6.
Qed.

Lemma candidates_In : forall cs act dev ci c i,
  In (ci, c, i) (candidates cs act dev) <->
  In ci act /\ nth_error cs ci = Some c /\ device_matches_filter c dev = true /\ In i (cx_inputs c).
Proof.
  intros cs act dev ci c i. unfold candidates. rewrite in_flat_map. split.
  - intros [x [Hx H]]. destruct (nth_error cs x) as [c'|] eqn:E; [|contradiction].
    destruct (device_matches_filter c' dev) eqn:Ed; [|contradiction].
    apply in_map_iff in H. destruct H as [i' [Hi Hi']]. injection Hi as -> -> ->. auto.
  - intros (H1 & H2 & H3 & H4). exists ci. split; [exact H1|]. rewrite H2, H3. apply in_map_iff. eauto.
Qed.

(** * C16: commands *)

Definition desc (l : list command) : Prop := StronglySorted (fun a b => (cm_idx a >= cm_idx b)%Z) l.

Lemma insert_command_perm : forall c l, Permutation (c :: l) (insert_command c l).
Proof.
  induction l as [|x l IH]; [auto|]. cbn. destruct (_ <? _)%Z; [auto|].
  eapply perm_trans; [apply perm_swap|]. constructor. exact IH.
Qed.

Lemma insert_command_sorted : forall c l, desc l -> desc (insert_command c l).
Proof.
  intros c. unfold desc. induction l as [|x l IH]; intros H; cbn.
  - constructor; [constructor|constructor].
  - inversion_clear H as [|? ? H1 H2]. destruct (cm_idx x <? cm_idx c)%Z eqn:E.
    + apply Z.ltb_lt in E. constructor; [constructor; auto|]. constructor; [lia|].
      eapply Forall_impl; [|exact H2]. cbn. intros. lia.
    + apply Z.ltb_ge in E. constructor; [auto|].
      rewrite <- (insert_command_perm c l). constructor; [lia|exact H2].
Qed.

Lemma sort_commands_spec : forall l, desc (sort_commands l) /\ Permutation l (sort_commands l).
Proof.
  intros l. unfold sort_commands.
  assert (G : forall l acc, desc acc -> desc (fold_left (fun acc c => insert_command c acc) l acc) /\
    Permutation (l ++ acc) (fold_left (fun acc c => insert_command c acc) l acc)).
  { clear. induction l as [|c l IH]; intros acc H; [auto|]. cbn [fold_left].
    destruct (IH (insert_command c acc) (insert_command_sorted c acc H)) as [H1 H2].
    split; [exact H1|]. eapply perm_trans; [|exact H2].
    cbn. rewrite Permutation_middle. apply Permutation_app_head. apply insert_command_perm. }
  destruct (G l [] (SSorted_nil _)) as [H1 H2]. rewrite app_nil_r in H2. auto.
Qed.

Lemma rfind_index_spec : forall A (f : A -> bool) l,
  match rfind_index f l with
  | Some i => exists a x b, l = a ++ x :: b /\ length a = i /\ f x = true /\ Forall (fun y => f y = false) b
  | None => Forall (fun y => f y = false) l
  end.
Proof.
  induction l as [|x l IH]; cbn; [constructor|].
  destruct (rfind_index f l) as [i|].
  - destruct IH as (a & y & b & -> & H1 & H2 & H3). exists (x :: a), y, b. cbn. auto.
  - destruct (f x) eqn:E; [|constructor; auto]. exists [], x, l. auto.
Qed.

(** In a list with distinct indices, the search finds the command with the index. *)
Lemma find_command_spec : forall l idx, desc l ->
  match find_command l idx with
  | Some i => exists c, nth_error l i = Some c /\ cm_idx c = idx
  | None => Forall (fun c => cm_idx c <> idx) l
  end.
Proof.
  intros l idx Hs. unfold find_command.
  pose proof (rfind_index_spec _ (fun c => negb (cm_idx c <? idx)%Z) l) as H.
  destruct (rfind_index _ l) as [i|].
  - destruct H as (a & x & b & -> & Hi & Hx & Hb).
    assert (En : nth_error (a ++ x :: b) i = Some x).
    { rewrite nth_error_app2 by lia. rewrite Hi, Nat.sub_diag. reflexivity. }
    rewrite En. apply negb_true_iff in Hx. apply Z.ltb_ge in Hx.
    destruct (Z.eqb_spec (cm_idx x) idx) as [E|E]; [eauto|].
    apply Forall_app. split; [|constructor; [exact E|]].
    + clear -Hs Hx E. unfold desc in Hs. induction a as [|y a IH]; [constructor|].
      cbn in Hs. inversion_clear Hs as [|? ? H1 H2]. constructor; [|auto].
      apply Forall_app in H2. destruct H2 as [_ H2]. inversion_clear H2. lia.
    + eapply Forall_impl; [|exact Hb]. intros c Hc. apply negb_false_iff in Hc.
      apply Z.ltb_lt in Hc. cbn in Hc. lia.
  - eapply Forall_impl; [|exact H]. intros c Hc. apply negb_false_iff in Hc.
    apply Z.ltb_lt in Hc. cbn in Hc. lia.
Qed.

(** [c] maps the command [idx] to [o]. *)
Definition maps_command (c : context) (idx : Z) (o : sequence) : Prop :=
  In (Cmd o idx) (cx_commands c).
(** The context a context index stands for: the end of its chain. *)
Definition block_of (cs : list context) (a : nat) (c : context) : Prop :=
  exists f, fallthrough_context cs a = Some f /\ nth_error cs f = Some c.

Lemma fallthrough_new_stage : forall cs a, fallthrough_context (new_stage cs) a = fallthrough_context cs a.
Proof.
  intros cs a. unfold fallthrough_context, new_stage.
  assert (E : forall n l, skipn n (map sort_context l) = map sort_context (skipn n l)).
  { induction n; intros [|x l]; cbn; auto. }
  rewrite E. generalize a at 2 4. induction (skipn a cs) as [|c l IH]; intros n; [reflexivity|].
  cbn. destruct (cx_fall c); [apply IH|reflexivity].
Qed.

Lemma nth_new_stage : forall cs f, nth_error (new_stage cs) f = option_map sort_context (nth_error cs f).
Proof.
  intros cs f. unfold new_stage. revert f. induction cs as [|c cs IH]; intros [|f]; cbn; auto.
Qed.

Lemma wf_new_stage : forall cs, wf_config cs -> wf_config (new_stage cs).
Proof.
  intros cs [H1 H2]. split.
  - unfold new_stage. apply Forall_forall. intros c Hc. apply in_map_iff in Hc.
    destruct Hc as [c' [<- Hc']]. rewrite Forall_forall in H1. exact (H1 c' Hc').
  - intros i c Hi Hf. rewrite nth_new_stage in Hi. destruct (nth_error cs i) as [c'|] eqn:E; [|discriminate].
    injection Hi as <-. unfold new_stage. rewrite map_length. eapply H2; eauto.
Qed.

Theorem find_command_last : forall cs act idx,
  wf_config cs -> in_bounds cs act ->
  Forall (fun c => NoDup (map cm_idx (cx_commands c))) cs ->
  match find_command_output (new_stage cs) (rev act) idx with
  | LFound _ o => exists a x b c, act = a ++ x :: b /\ block_of cs x c /\ maps_command c idx o /\
      Forall (fun y => forall c' o', block_of cs y c' -> ~ maps_command c' idx o') b
  | LNone => Forall (fun y => forall c' o', block_of cs y c' -> ~ maps_command c' idx o') act
  | LUB => False
  end.
Proof.
  intros cs act idx Hwf Hb Hnd.
  assert (Hwf' := wf_new_stage cs Hwf).
  induction act as [|x act IH] using rev_ind; [constructor|].
  apply Forall_app in Hb. destruct Hb as [Hb Hx]. inversion_clear Hx as [|? ? Hx' _].
  rewrite rev_unit. cbn [find_command_output].
  assert (Hx2 : (x < length (new_stage cs))%nat) by (unfold new_stage; rewrite map_length; exact Hx').
  destruct (fallthrough_ok (new_stage cs) Hwf' x Hx2) as [f [Hf Hfb]]. rewrite Hf.
  rewrite fallthrough_new_stage in Hf. rewrite nth_new_stage.
  assert (Hfl : (f < length cs)%nat) by (unfold new_stage in Hfb; rewrite map_length in Hfb; lia).
  destruct (nth_error cs f) as [c|] eqn:Ec; [|apply nth_error_None in Ec; lia].
  cbn [option_map]. destruct (sort_commands_spec (cx_commands c)) as [Hs Hp].
  pose proof (find_command_spec (sort_commands (cx_commands c)) idx Hs) as Hfc.
  cbn [sort_context cx_commands].
  destruct (find_command (sort_commands (cx_commands c)) idx) as [i|].
  - destruct Hfc as [cm [En Ei]]. rewrite En. exists act, x, [], c.
    split; [reflexivity|]. split; [exists f; auto|]. split; [|constructor].
    unfold maps_command. apply nth_error_In in En.
    apply (Permutation_in _ (Permutation_sym Hp)) in En. destruct cm as [o j]. cbn in *. subst. exact En.
  - assert (Hno : forall c' o', block_of cs x c' -> ~ maps_command c' idx o').
    { intros c' o' [f' [Hf' Hc']] Hm. rewrite Hf in Hf'. injection Hf' as <-.
      rewrite Ec in Hc'. injection Hc' as <-. rewrite Forall_forall in Hfc.
      apply (Hfc (Cmd o' idx)); [|reflexivity]. eapply Permutation_in; [exact Hp|exact Hm]. }
    specialize (IH Hb). destruct (find_command_output (new_stage cs) (rev act) idx) as [r o| |].
    + destruct IH as (a & y & b & c' & -> & H1 & H2 & H3). exists a, y, (b ++ [x]), c'.
      split; [rewrite <- app_assoc; reflexivity|]. split; [exact H1|]. split; [exact H2|].
      apply Forall_app. split; [exact H3|]. constructor; [exact Hno|constructor].
    + apply Forall_app. split; [exact IH|]. constructor; [exact Hno|constructor].
    + exact IH.
Qed.

(** * C23: device filters *)

Definition device_accepted (c : context) (d : device_desc) : bool :=
  filter_matches (cx_devf c) (dev_name d) && filter_matches (cx_devidf c) (dev_id d).

Lemma device_bits_spec : forall c ds j bits i,
  (j + N.of_nat (length ds) <= 64)%N -> i < 64 ->
  N.testbit (device_bits c ds (2 ^ j) bits) i =
  N.testbit bits i ||
  ((j <=? i) && match nth_error ds (N.to_nat (i - j)) with
                | Some d => device_accepted c d | None => false end).
Proof.
  intros c. induction ds as [|d ds IH]; intros j bits i Hl Hi.
  - cbn [device_bits]. destruct (N.to_nat (i - j)); cbn; rewrite andb_false_r, orb_false_r; reflexivity.
  - cbn [device_bits length] in *.
    assert (Hn : N.land (N.shiftl (2 ^ j) 1) all_device_bits = if j + 1 <? 64 then 2 ^ (j + 1) else 0).
    { rewrite N.shiftl_mul_pow2, <- N.pow_add_r. change all_device_bits with (N.ones 64).
      rewrite N.land_ones. destruct (N.ltb_spec (j + 1) 64) as [H|H].
      - apply N.mod_small. apply N.pow_lt_mono_r; lia.
      - replace (j + 1) with 64 by lia. reflexivity. }
    rewrite Hn. clear Hn.
    assert (Hbit : forall b : bool, N.testbit (if b then N.lor bits (2 ^ j) else bits) i =
              N.testbit bits i || (b && (i =? j))).
    { intros b. destruct b; [|rewrite orb_false_r; reflexivity].
      rewrite N.lor_spec. rewrite N.pow2_bits_eqb. cbn [andb]. rewrite (N.eqb_sym j i). reflexivity. }
    destruct (N.ltb_spec (j + 1) 64) as [H|H].
    + rewrite IH by lia. fold (device_accepted c d). rewrite Hbit.
      destruct (N.eqb_spec i j) as [->|Hne].
      * replace (j + 1 <=? j) with false by (symmetry; apply N.leb_gt; lia).
        rewrite N.leb_refl, N.sub_diag. cbn. destruct (device_accepted c d), (N.testbit bits j); reflexivity.
      * rewrite andb_false_r, orb_false_r.
        destruct (N.leb_spec (j + 1) i) as [H1|H1].
        -- replace (j <=? i) with true by (symmetry; apply N.leb_le; lia).
           replace (N.to_nat (i - j)) with (S (N.to_nat (i - (j + 1)))) by lia. reflexivity.
        -- replace (j <=? i) with false by (symmetry; apply N.leb_gt; lia). reflexivity.
    + assert (ds = []) by (destruct ds; [reflexivity|cbn in Hl; lia]). subst ds. cbn [device_bits].
      fold (device_accepted c d). rewrite Hbit.
      destruct (N.eqb_spec i j) as [->|Hne].
      * rewrite N.leb_refl, N.sub_diag. cbn. destruct (device_accepted c d), (N.testbit bits j); reflexivity.
      * rewrite andb_false_r, orb_false_r.
        replace (j <=? i) with false by (symmetry; apply N.leb_gt; lia). cbn. rewrite orb_false_r. reflexivity.
Qed.

Definition evaluated (ds : list device_desc) (c : context) : context :=
  Ctx (cx_inputs c) (cx_outputs c) (cx_commands c) (cx_devf c) (cx_devidf c) (cx_mods c)
      (if ctx_has_device_filter c then device_bits c ds 1 0 else all_device_bits) (cx_inv c) (cx_fall c).

Theorem device_filter_spec : forall c ds i,
  (length ds <= 64)%nat -> (i < 64)%nat ->
  device_matches_filter (evaluated ds c) (Z.of_nat i) =
  negb (ctx_has_device_filter c) ||
  match nth_error ds i with Some d => device_accepted c d | None => false end.
Proof.
  intros c ds i Hl Hi. unfold device_matches_filter.
  replace (Z.of_nat i =? any_device)%Z with false by (symmetry; apply Z.eqb_neq; unfold any_device; lia).
  replace (Z.of_nat i =? no_device)%Z with false by (symmetry; apply Z.eqb_neq; unfold no_device; lia).
  cbn [evaluated cx_bits]. rewrite <- nat_N_Z, N2Z.id.
  destruct (ctx_has_device_filter c); cbn [negb orb].
  - change 1 with (2 ^ 0). rewrite device_bits_spec by lia.
    rewrite N.bits_0, N.sub_0_r, Nat2N.id. cbn [orb].
    replace (0 <=? N.of_nat i) with true by (symmetry; apply N.leb_le; lia). reflexivity.
  - change all_device_bits with (N.ones 64). rewrite N.ones_spec_low by lia. reflexivity.
Qed.

(** * C18: the exit sequence *)

Definition presses_of (k : key) (n : nat) : sequence := repeat (ev0 k Down) n.

Lemma exit_frame : forall cs e dev s, s_exit (fst (update cs e dev s)) = advance_exit e (s_exit s).
Proof.
  intros cs e dev s. unfold update. cbn [fst].
  set (s0 := set_exit _ s). change (advance_exit e (s_exit s)) with (s_exit s0).
  change (s_exit (apply_input cs e dev s0) = s_exit s0). clearbody s0. clear s.
  unfold apply_input. pose proof (continue_frame e None s0) as Hc.
  destruct (continue_output_on_release e None s0) as [s1 go1]. cbn [fst] in Hc.
  assert (E1 : s_exit s1 = s_exit s0) by (unfold same_app in Hc; intuition).
  destruct (negb go1); [exact E1|].
  assert (E2 : s_exit (fst (suppress_not_timeout e s1)) = s_exit s1).
  { unfold suppress_not_timeout. destruct (s_timeout s1) as [c|]; [|reflexivity].
    repeat match goal with |- context [if ?c then _ else _] => destruct c end; reflexivity. }
  destruct (suppress_not_timeout e s1) as [s2 go2]. cbn [fst] in E2.
  destruct (negb go2); [congruence|].
  assert (E3 : s_exit (fst (merge_repeat e dev s2)) = s_exit s2).
  { unfold merge_repeat. destruct (es e); try (destruct (_ =? _)%Z; reflexivity).
    destruct (rfind_key _ _);
      repeat match goal with |- context [if ?c then _ else _] => destruct c end; reflexivity. }
  destruct (merge_repeat e dev s2) as [s3 go3]. cbn [fst] in E3.
  destruct (negb go3); [congruence|].
  transitivity (s_exit s3); [|congruence]. clear -cs. rename s3 into s. unfold process_input. cbn zeta.
  set (s1 := add_to_history cs e _).
  assert (E1 : s_exit s1 = s_exit s).
  { unfold s1, add_to_history. destruct (_ && _ && _); [|reflexivity].
    destruct (es e); match goal with |- context [if ?c then _ else _] => destruct c end; reflexivity. }
  clearbody s1.
  assert (E2 : forall s, s_exit (update_active_contexts cs s) = s_exit s).
  { intros s2. pose proof (update_active_frame cs s2) as H. unfold same_ctx in H. intuition. }
  rewrite <- E1, <- (E2 s1). set (s2 := update_active_contexts cs s1). clearbody s2.
  assert (E3 : s_exit (prepare_up e s2) = s_exit s2).
  { unfold prepare_up. destruct (kstate_eqb (es e) Up); [|reflexivity].
    cbn zeta. set (s3 := match s_timeout s2 with Some _ => _ | None => _ end).
    assert (H3 : s_exit s3 = s_exit s2).
    { unfold s3. destruct (s_timeout s2) as [c|]; [destruct (ct_output c)|]; reflexivity. }
    clearbody s3. destruct (s_might s3); [exact H3|].
    destruct (find_key (s_seq s3) (ek e)) as [i|]; [|exact H3].
    destruct (nth_error (s_seq s3) i) as [x|]; [|exact H3].
    destruct (kstate_eqb (es x) DownMatched); exact H3. }
  rewrite <- E3. set (s3 := prepare_up e s2). clearbody s3.
  change (s_exit s3) with (s_exit (unsuppress s3)). set (s4 := unsuppress s3). clearbody s4.
  assert (E5 : forall fuel s, s_exit (apply_loop cs fuel e dev s) = s_exit s).
  { induction fuel as [|f IH]; intros s5; cbn [apply_loop];
      (destruct (has_non_optional (s_seq s5)); [|reflexivity]); [reflexivity|].
    destruct (apply_round cs e dev s5) as [s6 b] eqn:Er.
    assert (E6 : s_exit s6 = s_exit s5).
    { apply round_cases in Er.
      destruct Er as [t1 res Hv Hm Hr|t1 inp ci Hv Hm|t2 len r o inp ci m Hfd Hm|t2 m Hf Hm].
      - pose proof (proj1 (match_input_frame cs true (s_seq s5) dev (key_up e) s5)) as Hf. rewrite Hm in Hf.
        unfold same_match in Hf. cbn in *. intuition.
      - pose proof (proj1 (match_input_frame cs true (s_seq s5) dev (key_up e) s5)) as Hf. rewrite Hm in Hf.
        unfold same_match in Hf. cbn in *. intuition.
      - destruct Hfd as (first & t0 & t1 & F1 & _ & _ & F4 & F5 & _).
        pose proof (proj1 (match_input_frame cs first (firstn len (s_seq s5)) dev (key_up e) t0)) as Hf.
        rewrite F4 in Hf. pose proof (apply_output_frame o (select_trigger e inp o t2) (Some ci) t2) as Ha.
        unfold same_match in *. unfold same_app in Ha. cbn in *. intuition congruence.
      - pose proof (forward_frame t2) as Hw. unfold same_fwd in Hw. unfold same_match in Hf.
        cbn. intuition congruence. }
    destruct b; [exact E6|]. rewrite IH. exact E6. }
  rewrite <- (E5 (weight (s_seq s4)) s4). set (s5 := apply_loop cs _ e dev s4). clearbody s5.
  unfold finish_input. cbn zeta.
  set (s6 := if kstate_eqb (es e) Up then _ else _).
  assert (E6 : s_exit s6 = s_exit s5).
  { unfold s6. destruct (kstate_eqb (es e) Up); [|reflexivity].
    pose proof (release_frame (ek e) None s5) as H. unfold same_rel in H. intuition. }
  rewrite <- E6, <- (E2 s6). clearbody s6. set (s7 := update_active_contexts cs s6). clearbody s7.
  assert (E8 : forall fuel s, s_exit (clean_up_history cs fuel s) = s_exit s).
  { clear. induction fuel as [|f IH]; intros s; cbn [clean_up_history];
      (destruct (s_hist s); [reflexivity|]); [reflexivity|].
    destruct (negb _); [reflexivity|]. destruct (history_might_match cs s); [reflexivity|].
    destruct (remove_first_ev _ _) as [h|]; [rewrite IH|]; reflexivity. }
  rewrite E8. destruct (s_seq _); reflexivity.
Qed.

(** The keyboard events of a list of calls. *)
Fixpoint keyboard_events (l : list call) : sequence :=
  match l with
  | [] => []
  | CInput e _ :: r => if is_keyboard_key (ek e) then e :: keyboard_events r else keyboard_events r
  | _ :: r => keyboard_events r
  end.

Lemma run_exit : forall cs l s,
  s_exit (fst (run cs l s)) = fold_left (fun p e => advance_exit e p) (keyboard_events l) (s_exit s).
Proof.
  intros cs. induction l as [|c l IH]; intros s; [reflexivity|].
  cbn [run]. destruct (do_call cs c s) as [s1 o1] eqn:E.
  specialize (IH s1). destruct (run cs l s1) as [s2 o2]. cbn [fst] in *. rewrite IH.
  destruct c as [e dev|il|f]; cbn [do_call keyboard_events] in *.
  - assert (E1 : s_exit s1 = advance_exit e (s_exit s)) by (rewrite <- (exit_frame cs e dev s), E; reflexivity).
    rewrite E1. destruct (is_keyboard_key (ek e)) eqn:Ek; [reflexivity|].
    f_equal. unfold advance_exit. rewrite Ek. reflexivity.
  - f_equal. unfold set_active_client_contexts in E. injection E as <- _. cbn.
    pose proof (update_active_frame cs (set_client il s)) as H. unfold same_ctx in H. cbn in H. intuition.
  - injection E as <- _. reflexivity.
Qed.

Definition is_press (k : key) (e : event) : Prop := ek e = k /\ es e = Down.
(** At least one press of [k] and nothing else. *)
Definition pressing (k : key) (l : sequence) : Prop := l <> [] /\ Forall (is_press k) l.

(** The last events are presses (and repeats) of the exit sequence. *)
Definition exit_typed (h : sequence) : Prop :=
  exists h0 a b c, h = h0 ++ a ++ b ++ c /\
    pressing ShiftLeft a /\ pressing Escape b /\ pressing K_K c.

Definition pos (h : sequence) : nat := fold_left (fun p e => advance_exit e p) h 0%nat.
Definition keyboard (h : sequence) : Prop := Forall (fun e => is_keyboard_key (ek e) = true) h.

Lemma pos_snoc : forall h e, pos (h ++ [e]) = advance_exit e (pos h).
Proof. intros. unfold pos. rewrite fold_left_app. reflexivity. Qed.

Lemma pressing_snoc : forall k e l, pressing k l -> is_press k e -> pressing k (l ++ [e]).
Proof.
  intros k e l [H1 H2] He. split; [destruct l; discriminate|]. apply Forall_app. auto.
Qed.
Lemma pressing_one : forall k e, is_press k e -> pressing k [e].
Proof. intros k e He. split; [discriminate|]. auto. Qed.

(** What each position says about the last events. *)
Definition typed (n : nat) (h : sequence) : Prop :=
  match n with
  | O => True
  | 1%nat => exists h0 a, h = h0 ++ a /\ pressing ShiftLeft a
  | 2%nat => exists h0 a b, h = h0 ++ a ++ b /\ pressing ShiftLeft a /\ pressing Escape b
  | 3%nat => exit_typed h
  | _ => False
  end.

Lemma pos_typed : forall h, keyboard h -> typed (pos h) h.
Proof.
  induction h as [|e h IH] using rev_ind; intros Hk; [exact I|].
  apply Forall_app in Hk. destruct Hk as [Hk He]. inversion_clear He. rename H into He.
  specialize (IH Hk). rewrite pos_snoc. unfold advance_exit. rewrite He. cbn [negb].
  destruct (kstate_eqb (es e) Down) eqn:Ed; [|exact I]. apply kstate_eqb_eq in Ed.
  destruct (pos h) as [|[|[|[|n]]]]; cbn [nth_error exit_sequence]; cbn [typed] in IH; [| | | |contradiction].
  - destruct (N.eqb_spec (ek e) ShiftLeft) as [E|E]; [|exact I].
    exists h, [e]. split; [reflexivity|]. apply pressing_one. split; auto.
  - destruct IH as (h0 & a & -> & Ha). destruct (N.eqb_spec (ek e) ShiftLeft) as [E|E].
    + exists h0, (a ++ [e]). split; [rewrite app_assoc; reflexivity|]. apply pressing_snoc; [exact Ha|split; auto].
    + destruct (N.eqb_spec (ek e) Escape) as [E'|E']; [|exact I].
      exists h0, a, [e]. split; [rewrite app_assoc; reflexivity|]. split; [exact Ha|].
      apply pressing_one. split; auto.
  - destruct IH as (h0 & a & b & -> & Ha & Hb). destruct (N.eqb_spec (ek e) Escape) as [E|E].
    + exists h0, a, (b ++ [e]). split; [rewrite <- !app_assoc; reflexivity|]. split; [exact Ha|].
      apply pressing_snoc; [exact Hb|split; auto].
    + destruct (N.eqb_spec (ek e) K_K) as [E'|E']; [|exact I].
      exists h0, a, b, [e]. split; [rewrite <- !app_assoc; reflexivity|]. split; [exact Ha|]. split; [exact Hb|].
      apply pressing_one. split; auto.
  - destruct IH as (h0 & a & b & c & -> & Ha & Hb & Hc). destruct (N.eqb_spec (ek e) K_K) as [E|E]; [|exact I].
    exists h0, a, b, (c ++ [e]). split; [rewrite <- !app_assoc; reflexivity|]. split; [exact Ha|]. split; [exact Hb|].
    apply pressing_snoc; [exact Hc|split; auto].
Qed.

(** A press of a key which is already down is the immediate repeat of its press. *)
Definition repeats_last (h : sequence) : Prop :=
  forall h1 e h2, h = h1 ++ e :: h2 -> es e = Down -> is_down_after h1 (ek e) = true ->
    exists h3 e3, h1 = h3 ++ [e3] /\ ek e3 = ek e.

Lemma press_run : forall k l p, Forall (is_press k) l -> is_keyboard_key k = true ->
  (exists q, p = S q /\ nth_error exit_sequence q = Some k) ->
  fold_left (fun p e => advance_exit e p) l p = p.
Proof.
  intros k l p H Hk (q & -> & Hq). induction H as [|e l [He1 He2] Hl IH]; [reflexivity|].
  cbn [fold_left]. unfold advance_exit at 2. rewrite He1, He2, Hk, Hq, N.eqb_refl. cbn. exact IH.
Qed.

Lemma down_after_pressing : forall h k l k', pressing k l -> k' <> k ->
  is_down_after (h ++ l) k' = is_down_after h k'.
Proof.
  intros h k l k' [_ Hl] Hne. unfold is_down_after. f_equal.
  induction l as [|e l IH] using rev_ind; [rewrite app_nil_r; reflexivity|].
  apply Forall_app in Hl. destruct Hl as [Hl He]. inversion_clear He. destruct H as [H _].
  rewrite app_assoc. rewrite find_last_app. cbn [find_last].
  unfold has_key at 1. rewrite H. destruct (N.eqb_spec k k') as [E|E]; [congruence|]. apply IH; exact Hl.
Qed.
Lemma pressing_down : forall h k l, pressing k l -> is_down_after (h ++ l) k = true.
Proof.
  intros h k l [Hne Hl]. destruct l as [|e l] using rev_ind; [congruence|].
  apply Forall_app in Hl. destruct Hl as [_ He]. inversion_clear He. destruct H as [H1 H2].
  unfold is_down_after. rewrite app_assoc, find_last_app. cbn [find_last]. unfold has_key at 1.
  rewrite H1, N.eqb_refl, H2. reflexivity.
Qed.
Lemma pressing_end : forall h k l h' e, pressing k l -> h ++ l = h' ++ [e] -> ek e = k.
Proof.
  intros h k l h' e [Hne Hl] E. destruct l as [|x l] using rev_ind; [congruence|].
  rewrite app_assoc in E. apply app_inj_tail in E. destruct E as [_ <-].
  apply Forall_app in Hl. destruct Hl as [_ He]. inversion_clear He. destruct H as [H1 H2]. exact H1.
Qed.

Theorem exit_typed_pos : forall h, keyboard h -> repeats_last h -> exit_typed h -> pos h = 3%nat.
Proof.
  intros h Hk Hr (h0 & a & b & c & -> & Ha & Hb & Hc).
  assert (P1 : pos (h0 ++ a) = 1%nat).
  { destruct a as [|x a]; [destruct Ha as [H _]; congruence|].
    assert (Ha2 : Forall (is_press ShiftLeft) (x :: a)) by apply Ha.
    inversion_clear Ha2 as [|? ? [Hx1 Hx2] Ha'].
    unfold pos. rewrite fold_left_app. fold (pos h0). cbn [fold_left].
    assert (E1 : advance_exit x (pos h0) = 1%nat).
    { assert (Hkx : is_keyboard_key ShiftLeft = true) by reflexivity.
      assert (Hk0 : keyboard h0) by (apply Forall_app in Hk; apply Hk).
      pose proof (pos_typed h0 Hk0) as Ht.
      assert (Hnd : forall h3 e3, h0 = h3 ++ [e3] -> is_down_after h0 ShiftLeft = true -> ek e3 = ShiftLeft).
      { intros h3 e3 E Hd. destruct (Hr h0 x (a ++ b ++ c)) as (h4 & e4 & E4 & E5); auto.
        - rewrite Hx1. exact Hd.
        - rewrite E in E4. apply app_inj_tail in E4. destruct E4 as [_ E4]. congruence. }
      unfold advance_exit. rewrite Hx1, Hx2, Hkx. cbn [negb kstate_eqb].
      change (kstate_eqb Down Down) with true. cbn iota.
      destruct (pos h0) as [|[|[|[|n]]]]; cbn [typed] in Ht; [reflexivity|reflexivity| | |contradiction]; exfalso.
      - destruct Ht as (g & a' & b' & E & Ha1 & Hb1).
        assert (Hd : is_down_after h0 ShiftLeft = true).
        { rewrite E, app_assoc. rewrite (down_after_pressing _ _ _ _ Hb1) by discriminate.
          apply (pressing_down _ _ _ Ha1). }
        destruct b' as [|y b'] using rev_ind; [destruct Hb1; congruence|].
        rewrite !app_assoc in E. specialize (Hnd _ _ E Hd). destruct Hb1 as [_ Hb1].
        apply Forall_app in Hb1. destruct Hb1 as [_ Hb1]. inversion_clear Hb1. destruct H as [H _].
        rewrite Hnd in H. discriminate.
      - destruct Ht as (g & a' & b' & c' & E & Ha1 & Hb1 & Hc1).
        assert (Hd : is_down_after h0 ShiftLeft = true).
        { rewrite E, !app_assoc. rewrite (down_after_pressing _ _ _ _ Hc1) by discriminate.
          rewrite (down_after_pressing _ _ _ _ Hb1) by discriminate. apply (pressing_down _ _ _ Ha1). }
        destruct c' as [|y c'] using rev_ind; [destruct Hc1; congruence|].
        rewrite !app_assoc in E. specialize (Hnd _ _ E Hd). destruct Hc1 as [_ Hc1].
        apply Forall_app in Hc1. destruct Hc1 as [_ Hc1]. inversion_clear Hc1. destruct H as [H _].
        rewrite Hnd in H. discriminate. }
    rewrite E1. apply (press_run ShiftLeft); [exact Ha'|reflexivity|exists 0%nat; auto]. }
  assert (P2 : pos (h0 ++ a ++ b) = 2%nat).
  { rewrite app_assoc. unfold pos. rewrite fold_left_app. fold (pos (h0 ++ a)). rewrite P1.
    destruct b as [|x b]; [destruct Hb; congruence|]. destruct Hb as [_ Hb]. inversion_clear Hb as [|? ? [Hx1 Hx2] Hb'].
    cbn [fold_left]. replace (advance_exit x 1) with 2%nat.
    - apply (press_run Escape); [exact Hb'|reflexivity|exists 1%nat; auto].
    - unfold advance_exit. rewrite Hx1, Hx2. reflexivity. }
  replace (h0 ++ a ++ b ++ c) with ((h0 ++ a ++ b) ++ c) by (rewrite <- !app_assoc; reflexivity).
  unfold pos. rewrite fold_left_app. fold (pos (h0 ++ a ++ b)). rewrite P2.
  destruct c as [|x c]; [destruct Hc; congruence|]. destruct Hc as [_ Hc]. inversion_clear Hc as [|? ? [Hx1 Hx2] Hc'].
  cbn [fold_left]. replace (advance_exit x 2) with 3%nat.
  - apply (press_run K_K); [exact Hc'|reflexivity|exists 2%nat; auto].
  - unfold advance_exit. rewrite Hx1, Hx2. reflexivity.
Qed.

Lemma keyboard_events_keyboard : forall l, keyboard (keyboard_events l).
Proof.
  induction l as [|[e d|il|f] l IH]; cbn; try constructor; auto.
  destruct (is_keyboard_key (ek e)) eqn:E; [constructor; auto|auto].
Qed.

Lemma should_exit_pos : forall cs l,
  should_exit (fst (run cs l init_state)) = true <-> pos (keyboard_events l) = 3%nat.
Proof.
  intros cs l. unfold should_exit. rewrite run_exit. change (s_exit init_state) with 0%nat.
  fold (pos (keyboard_events l)). apply Nat.eqb_eq.
Qed.

(** * C19: validation *)

Theorem validate_spec : forall is_down s,
  let s' := validate_state is_down s in
  s_seq s' = filter (fun e => negb (is_device_key (ek e)) || is_down (ek e)) (s_seq s) /\
  s_down s' = filter (fun o => negb (is_device_key (od_key o)) || is_down (get_trigger_key (od_trigger o))) (s_down s).
Proof.
  intros is_down s. cbn. split; apply filter_ext; intros x.
  - destruct (is_device_key (ek x)), (is_down (ek x)); reflexivity.
  - destruct (is_device_key (od_key x)), (is_down _); reflexivity.
Qed.

(** * C24: modifier filters *)

(** The context's conditions hold when [down] are the keys which count as pressed. *)
Definition enabled (down : key -> Prop) (c : context) : Prop :=
  (cx_inv c = false <-> forall m, In m (cx_mods c) -> (down (ek m) <-> es m <> Not)) /\
  (ctx_has_device_filter c = true -> cx_bits c <> 0).

Definition buffered (s : state) (k : key) : Prop := In k (map ek (s_seq s)).

Lemma existsb_has_key : forall sq k, existsb (has_key k) sq = true <-> In k (map ek sq).
Proof.
  intros sq k. rewrite existsb_exists, in_map_iff. split; intros [x [H1 H2]]; exists x.
  - apply N.eqb_eq in H2. auto.
  - split; [auto|]. apply N.eqb_eq. auto.
Qed.

Lemma enabled_spec : forall sq c,
  xorb (match_modifier_filter sq (cx_mods c)) (cx_inv c)
    && (negb (ctx_has_device_filter c) || negb (cx_bits c =? 0)) = true <->
  enabled (fun k => In k (map ek sq)) c.
Proof.
  intros sq c. unfold enabled.
  assert (Hm : match_modifier_filter sq (cx_mods c) = true <->
    forall m, In m (cx_mods c) -> (In (ek m) (map ek sq) <-> es m <> Not)).
  { unfold match_modifier_filter. rewrite forallb_forall. split; intros H m Hi; specialize (H m Hi).
    - rewrite <- existsb_has_key. apply Bool.eqb_prop in H. rewrite H. destruct (es m); cbn; intuition discriminate.
    - destruct (existsb (has_key (ek m)) sq) eqn:E.
      + apply existsb_has_key in E. apply H in E. destruct (es m); cbn; auto; congruence.
      + destruct (kstate_eqb (es m) Not) eqn:En; [reflexivity|].
        assert (es m <> Not) by (intros E'; rewrite E' in En; discriminate).
        apply H in H0. apply existsb_has_key in H0. congruence. }
  rewrite andb_true_iff. rewrite <- Hm.
  assert (Hd : negb (ctx_has_device_filter c) || negb (cx_bits c =? 0) = true <->
               (ctx_has_device_filter c = true -> cx_bits c <> 0)).
  { destruct (ctx_has_device_filter c); cbn; [|intuition discriminate].
    destruct (N.eqb_spec (cx_bits c) 0); cbn; intuition congruence. }
  rewrite Hd. destruct (match_modifier_filter sq (cx_mods c)), (cx_inv c); cbn; intuition (try congruence).
Qed.

Definition incr (l : list nat) : Prop := StronglySorted lt l.

Lemma incr_snoc : forall l x, incr l -> (forall y, In y l -> (y < x)%nat) -> incr (l ++ [x]).
Proof.
  induction l as [|y l IH]; intros x H Hx; [repeat constructor|].
  inversion_clear H. cbn. constructor; [apply IH; auto; intros; apply Hx; right; auto|].
  apply Forall_app. split; [auto|]. constructor; [apply Hx; left; reflexivity|constructor].
Qed.

Lemma fallthrough_from_mono : forall l i f, fallthrough_from l i = Some f -> (i <= f)%nat.
Proof.
  induction l as [|c l IH]; intros i f H; [discriminate|]. cbn in H.
  destruct (cx_fall c); [apply IH in H; lia|injection H as <-; lia].
Qed.

(** Chains do not overlap. *)
Lemma fallthrough_order : forall cs i j f g, (i <= j)%nat ->
  fallthrough_context cs i = Some f -> fallthrough_context cs j = Some g -> (f <= g)%nat.
Proof.
  intros cs i j f g Hij Hf Hg. unfold fallthrough_context in *.
  assert (Hij2 : (j = i + (j - i))%nat) by lia. revert Hij2 Hf. generalize (j - i)%nat as d. intros d ->.
  assert (Es : skipn (i + d) cs = skipn d (skipn i cs)).
  { clear. revert cs. induction i; intros [|x cs]; cbn; auto. destruct d; reflexivity. }
  rewrite Es in Hg. revert Hg. generalize (skipn i cs) as l. clear. revert i.
  induction d as [|d IH]; intros i l Hg Hf.
  - cbn in Hg. rewrite Nat.add_0_r in Hg. rewrite Hf in Hg. injection Hg as ->. lia.
  - destruct l as [|c l]; [discriminate|]. cbn in Hf, Hg.
    destruct (cx_fall c).
    + apply (IH (S i) l); auto. rewrite <- Nat.add_succ_comm in Hg. exact Hg.
    + injection Hf as <-. apply fallthrough_from_mono in Hg. lia.
Qed.

Lemma back_snoc : forall A (l : list A) x, back (l ++ [x]) = Some x.
Proof. intros. unfold back. rewrite rev_unit. reflexivity. Qed.

(** The enabled block of a client context. *)
Definition activates (cs : list context) (down : key -> Prop) (client : list nat) (f : nat) : Prop :=
  exists i c, In i client /\ nth_error cs i = Some c /\ enabled down c /\ fallthrough_context cs i = Some f.

Lemma activates_cons : forall cs down i client f,
  activates cs down (i :: client) f <->
  (exists c, nth_error cs i = Some c /\ enabled down c /\ fallthrough_context cs i = Some f) \/
  activates cs down client f.
Proof.
  intros cs down i client f. unfold activates. split.
  - intros (j & c & [<-|Hj] & H); [left; exists c; exact H|right; exists j, c; auto].
  - intros [(c & H)|(j & c & Hj & H)]; [exists i, c; split; [left; reflexivity|exact H]|exists j, c; split; [right; exact Hj|exact H]].
Qed.

Lemma eval_active_In : forall cs sq client acc r,
  eval_active cs sq client acc = Some r ->
  forall f, In f r <-> In f acc \/ activates cs (fun k => In k (map ek sq)) client f.
Proof.
  intros cs sq. induction client as [|i client IH]; intros acc r H f.
  - cbn in H. injection H as <-. split; [auto|]. intros [H|(? & ? & [] & _)]. exact H.
  - cbn [eval_active] in H. destruct (nth_error cs i) as [c|] eqn:Ec; [|discriminate].
    rewrite activates_cons.
    destruct (xorb _ _ && _) eqn:Ee.
    + destruct (fallthrough_context cs i) as [g|] eqn:Eg; [|discriminate].
      rewrite (IH _ _ H). apply enabled_spec in Ee.
      assert (Hacc : In f (match back acc with Some b => if Nat.eqb b g then acc else acc ++ [g] | None => acc ++ [g] end)
                <-> In f acc \/ f = g).
      { assert (E1 : In f (acc ++ [g]) <-> In f acc \/ f = g).
        { rewrite in_app_iff. cbn. intuition. }
        destruct (back acc) as [b|] eqn:Eb; [|exact E1]. destruct (Nat.eqb_spec b g) as [E|E]; [|exact E1].
        subst b. apply back_split in Eb. split; [auto|]. intros [Hi|Hi]; [exact Hi|].
        subst f. rewrite Eb. apply in_or_app. right. left. reflexivity. }
      rewrite Hacc. clear IH Hacc. split.
      * intros [[H1|H1]|H1]; [auto| |auto]. subst f. right. left. exists c. auto.
      * intros [H1|[(c' & H1 & H2 & H3)|H1]]; [auto| |auto]. left. right. congruence.
    + rewrite (IH _ _ H). split; [intuition|]. intros [H1|[(c' & H1 & H2 & H3)|H1]]; [auto| |auto].
      exfalso. rewrite Ec in H1. injection H1 as <-. apply enabled_spec in H2. congruence.
Qed.

Lemma eval_active_incr : forall cs sq client acc r,
  incr client -> incr acc ->
  (forall b i g, In b acc -> In i client -> fallthrough_context cs i = Some g -> (b <= g)%nat) ->
  eval_active cs sq client acc = Some r -> incr r.
Proof.
  intros cs sq. induction client as [|i client IH]; intros acc r Hc Ha Hb H.
  - cbn in H. injection H as <-. exact Ha.
  - inversion_clear Hc as [|? ? Hc1 Hc2]. cbn [eval_active] in H.
    destruct (nth_error cs i) as [c|] eqn:Ec; [|discriminate].
    destruct (xorb _ _ && _).
    2:{ apply (IH acc r Hc1 Ha); [|exact H]. intros b j g H1 H2. apply Hb; [exact H1|right; exact H2]. }
    destruct (fallthrough_context cs i) as [g|] eqn:Eg; [|discriminate].
    assert (Hlt : forall b, In b acc -> (b <= g)%nat) by (intros b Hi; eapply Hb; [exact Hi|left; reflexivity|exact Eg]).
    apply (IH _ r Hc1) in H; [exact H| |].
    + destruct (back acc) as [b|] eqn:Eb.
      * destruct (Nat.eqb_spec b g) as [E|E]; [exact Ha|].
        apply incr_snoc; [exact Ha|]. intros y Hy. apply back_split in Eb.
        assert (Hbg : (b <= g)%nat) by (apply Hlt; rewrite Eb; apply in_or_app; right; left; reflexivity).
        assert (Hyb : (y <= b)%nat).
        { rewrite Eb in Ha, Hy. clear -Ha Hy. apply in_app_or in Hy. destruct Hy as [Hy|[Hy|[]]]; [|lia].
          revert Ha Hy. generalize (pop_back acc) as l. induction l as [|z l IHl]; intros Ha Hy; [destruct Hy|].
          cbn in Ha. inversion_clear Ha as [|? ? H1 H2]. destruct Hy as [<-|Hy]; [|auto].
          apply Forall_app in H2. destruct H2 as [_ H2]. inversion_clear H2. lia. }
        lia.
      * apply incr_snoc; [exact Ha|]. unfold back in Eb. destruct acc as [|z acc]; [intros ? []|].
        exfalso. destruct (rev (z :: acc)) eqn:Er; [|discriminate].
        assert (length (rev (z :: acc)) = 0%nat) by (rewrite Er; reflexivity). rewrite rev_length in H0. discriminate.
    + intros b j gj H1 H2 H3.
      assert (Hgj : (g <= gj)%nat).
      { eapply fallthrough_order; [|exact Eg|exact H3]. rewrite Forall_forall in Hc2. specialize (Hc2 j H2). lia. }
      assert (H1' : In b acc \/ b = g).
      { destruct (back acc) as [x|]; [destruct (Nat.eqb x g)|]; auto;
          apply in_app_or in H1; destruct H1 as [H1|[H1|[]]]; auto. }
      destruct H1' as [H1'|H1']; [specialize (Hlt b H1'); lia|lia].
Qed.

Lemma toggled_spec : forall act p c, incr p -> incr c ->
  toggled act p c =
  if act then filter (fun x => negb (existsb (Nat.eqb x) p)) c
  else filter (fun x => negb (existsb (Nat.eqb x) c)) p.
Proof.
  assert (Hno : forall x l, Forall (lt x) l -> existsb (Nat.eqb x) l = false).
  { intros x l H. induction H as [|y l H1 H2 IH]; [reflexivity|]. cbn. rewrite IH.
    replace (Nat.eqb x y) with false by (symmetry; apply Nat.eqb_neq; lia). reflexivity. }
  assert (Hskip : forall y l (q : nat -> bool), Forall (lt y) l ->
            filter (fun x => negb ((x =? y)%nat || q x)) l = filter (fun x => negb (q x)) l).
  { intros y l q H. induction H as [|x l H1 H2 IH]; [reflexivity|]. cbn. rewrite IH.
    replace (x =? y)%nat with false by (symmetry; apply Nat.eqb_neq; lia). reflexivity. }
  assert (Hall : forall (l : list nat), filter (fun _ => negb false) l = l).
  { induction l as [|x l IH]; [reflexivity|]. cbn. cbn in IH. rewrite IH. reflexivity. }
  assert (Hnil : forall act c, toggled act [] c = if act then c else []).
  { intros act. induction c as [|c0 c IH]; [destruct act; reflexivity|]. cbn [toggled] in *. destruct act; rewrite IH; reflexivity. }
  assert (Hnil2 : forall act p, toggled act p [] = if act then [] else p).
  { intros act. induction p as [|p0 p IH]; [destruct act; reflexivity|]. cbn [toggled]. destruct act; rewrite IH; reflexivity. }
  intros act. induction p as [|p0 p IHp]; intros c Hp Hc.
  { rewrite Hnil. destruct act; [cbn; rewrite Hall; reflexivity|reflexivity]. }
  assert (Hp' := Hp). inversion_clear Hp' as [|? ? Hp1 Hp2].
  induction c as [|c0 c IHc].
  { rewrite Hnil2. destruct act; [reflexivity|]. cbn. rewrite Hall. reflexivity. }
  assert (Hc' := Hc). inversion_clear Hc' as [|? ? Hc1 Hc2]. specialize (IHc Hc1).
  change (toggled act (p0 :: p) (c0 :: c)) with
    (if Nat.ltb p0 c0 then if act then toggled act p (c0 :: c) else p0 :: toggled act p (c0 :: c)
     else if Nat.ltb c0 p0 then if act then c0 :: toggled act (p0 :: p) c else toggled act (p0 :: p) c
     else toggled act p c).
  destruct (Nat.ltb_spec p0 c0) as [H|H].
  - rewrite (IHp (c0 :: c) Hp1 Hc).
    assert (Hlt : Forall (lt p0) (c0 :: c)).
    { constructor; [exact H|]. eapply Forall_impl; [|exact Hc2]. cbn. intros. lia. }
    destruct act.
    + symmetry. cbn [existsb]. rewrite (Hskip p0 (c0 :: c) (fun x => existsb (Nat.eqb x) p) Hlt). reflexivity.
    + cbn [filter]. rewrite (Hno p0 (c0 :: c) Hlt). reflexivity.
  - destruct (Nat.ltb_spec c0 p0) as [H'|H'].
    + rewrite IHc.
      assert (Hlt : Forall (lt c0) (p0 :: p)).
      { constructor; [exact H'|]. eapply Forall_impl; [|exact Hp2]. cbn. intros. lia. }
      destruct act.
      * cbn [filter]. rewrite (Hno c0 (p0 :: p) Hlt). reflexivity.
      * symmetry. cbn [existsb]. rewrite (Hskip c0 (p0 :: p) (fun x => existsb (Nat.eqb x) c) Hlt). reflexivity.
    + assert (E : p0 = c0) by lia. subst p0. rewrite (IHp c Hp1 Hc1). destruct act.
      * cbn [filter existsb]. rewrite Nat.eqb_refl. cbn [orb negb].
        rewrite (Hskip c0 c (fun x => existsb (Nat.eqb x) p) Hc2). reflexivity.
      * cbn [filter existsb]. rewrite Nat.eqb_refl. cbn [orb negb].
        rewrite (Hskip c0 p (fun x => existsb (Nat.eqb x) c) Hp2). reflexivity.
Qed.

(** ** The active contexts follow the buffered keys *)

(** What the loop does to the buffered events. *)
Inductive seq_ops : sequence -> sequence -> Prop :=
| so_refl : forall l, seq_ops l l
| so_forward : forall l l', seq_ops (forward_seq [] l) l' -> seq_ops l l'
| so_finish : forall n l l', seq_ops (finish_loop n l) l' -> seq_ops l l'.

Lemma round_seq : forall cs e dev s s' brk, apply_round cs e dev s = (s', brk) ->
  (s_seq s' = s_seq s \/ s_seq s' = forward_seq [] (s_seq s) \/
   exists n, (n <= length (s_seq s))%nat /\ s_seq s' = finish_loop n (s_seq s)) /\
  s_client s' = s_client s /\ s_active s' = s_active s.
Proof.
  intros cs e dev s s' brk Er. apply round_cases in Er.
  destruct Er as [t1 res Hv Hm Hr|t1 inp ci Hv Hm|t2 len r o inp ci m Hfd Hm|t2 m Hf Hm].
  - pose proof (proj1 (match_input_frame cs true (s_seq s) dev (key_up e) s)) as Hf. rewrite Hm in Hf.
    unfold same_match in Hf. cbn in *. split; [|intuition]. right. right. exists (length (s_seq s)).
    split; [lia|]. intuition congruence.
  - pose proof (proj1 (match_input_frame cs true (s_seq s) dev (key_up e) s)) as Hf. rewrite Hm in Hf.
    unfold same_match in Hf. cbn in *. intuition.
  - destruct Hfd as (first & t0 & t1 & F1 & F2 & F3 & F4 & F5 & _).
    pose proof (proj1 (match_input_frame cs first (firstn len (s_seq s)) dev (key_up e) t0)) as Hf.
    rewrite F4 in Hf. pose proof (apply_output_frame o (select_trigger e inp o t2) (Some ci) t2) as Ha.
    unfold same_match in *. unfold same_app in Ha. cbn in *. split; [|intuition congruence].
    right. right. exists len. split.
    + destruct first; [destruct (F2 eq_refl); lia|destruct (F3 eq_refl) as (_ & H & _); lia].
    + assert (E : s_seq (apply_output o (select_trigger e inp o t2) (Some ci) t2) = s_seq s) by intuition congruence.
      rewrite E. reflexivity.
  - pose proof (forward_frame t2) as Hw. unfold same_fwd in Hw. unfold same_match in Hf.
    cbn. split; [|intuition congruence]. right. left. destruct Hw as [_ ->]. f_equal. intuition.
Qed.

Lemma loop_seq : forall cs fuel e dev s,
  seq_ops (s_seq s) (s_seq (apply_loop cs fuel e dev s)) /\
  s_client (apply_loop cs fuel e dev s) = s_client s /\ s_active (apply_loop cs fuel e dev s) = s_active s.
Proof.
  intros cs. induction fuel as [|f IH]; intros e dev s; cbn [apply_loop];
    (destruct (has_non_optional (s_seq s)); [|split; [constructor|auto]]).
  - cbn. split; [constructor|auto].
  - destruct (apply_round cs e dev s) as [s1 b] eqn:Er. apply round_seq in Er.
    destruct Er as (H1 & H2 & H3).
    assert (G : forall l, seq_ops (s_seq s1) l -> seq_ops (s_seq s) l).
    { intros l Hl. destruct H1 as [H1|[H1|(n & _ & H1)]]; rewrite H1 in Hl;
        [exact Hl|apply so_forward; exact Hl|eapply so_finish; exact Hl]. }
    destruct b; [split; [apply G; constructor|auto]|].
    destruct (IH e dev s1) as (G1 & G2 & G3). split; [apply G; exact G1|]. split; congruence.
Qed.

(** Matched releases are expired timeouts. *)
Definition ups_timeout (l : sequence) : Prop := Forall (fun e => es e = UpMatched -> ek e = k_timeout) l.

Lemma forward_ups : forall l pre, ups_timeout pre -> ups_timeout l -> ups_timeout (forward_seq pre l).
Proof.
  unfold ups_timeout. induction l as [|e r IH]; intros pre Hp Hl; [exact Hp|].
  inversion_clear Hl. cbn [forward_seq].
  assert (Hpr : Forall (fun e => es e = UpMatched -> ek e = k_timeout) (pre ++ r)) by (apply Forall_app; auto).
  destruct (es e) eqn:Ee; try exact Hpr; destruct (contains_ev _ _); try exact Hpr.
  - apply Forall_app. split; [exact Hp|]. constructor; [|auto]. cbn. discriminate.
  - apply IH; auto. apply Forall_app. split; [exact Hp|]. constructor; [congruence|constructor].
Qed.
Lemma finish_ups : forall n l, ups_timeout l -> ups_timeout (finish_loop n l).
Proof.
  unfold ups_timeout. induction n as [|n IH]; intros l H; [destruct l; exact H|].
  destruct l as [|e r]; [constructor|]. inversion_clear H. cbn [finish_loop].
  destruct (es e) eqn:E; try (destruct (N.eqb_spec (ek e) k_timeout)); try destruct (contains_ev _ _); auto;
    constructor; auto; cbn; congruence.
Qed.
Lemma seq_ops_ups : forall l l', seq_ops l l' -> ups_timeout l -> ups_timeout l'.
Proof.
  intros l l' H. induction H; intros Hu; [exact Hu| |].
  - apply IHseq_ops. apply forward_ups; [constructor|exact Hu].
  - apply IHseq_ops. apply finish_ups. exact Hu.
Qed.

Definition no_timeout_filter (cs : list context) : Prop :=
  Forall (fun c => Forall (fun m => ek m <> k_timeout) (cx_mods c)) cs.

Lemma eval_active_ext : forall cs sq sq' client acc, 
  (forall c, In c cs -> match_modifier_filter sq' (cx_mods c) = match_modifier_filter sq (cx_mods c)) ->
  eval_active cs sq' client acc = eval_active cs sq client acc.
Proof.
  intros cs sq sq' client acc H. revert acc. induction client as [|i client IH]; intros acc; [reflexivity|].
  cbn [eval_active]. destruct (nth_error cs i) as [c|] eqn:E; [|reflexivity].
  rewrite (H c (nth_error_In _ _ E)). destruct (xorb _ _ && _); [|apply IH].
  destruct (fallthrough_context cs i); [apply IH|reflexivity].
Qed.

Lemma drop_up_filter : forall mods l, ups_timeout l -> Forall (fun m => ek m <> k_timeout) mods ->
  match_modifier_filter (drop_up_matched l) mods = match_modifier_filter l mods.
Proof.
  intros mods l Hl Hm. unfold match_modifier_filter. induction Hm as [|m mods Hm1 Hm2 IH]; [reflexivity|].
  cbn [forallb]. rewrite IH. f_equal. f_equal. clear -Hl Hm1.
  induction l as [|x l IH]; [reflexivity|]. inversion_clear Hl. cbn [drop_up_matched].
  destruct (kstate_eqb (es x) UpMatched) eqn:E; [|reflexivity]. rewrite (IH H0).
  apply kstate_eqb_eq in E. cbn. unfold has_key at 2. rewrite (H E).
  destruct (N.eqb_spec k_timeout (ek m)); [congruence|reflexivity].
Qed.

Record active_ok (cs : list context) (s : state) : Prop := {
  ao_ups : ups_timeout (s_seq s);
  ao_act : eval_active cs (s_seq s) (s_client s) [] = Some (s_active s)
}.

Lemma remove_at_ups : forall i l, ups_timeout l -> ups_timeout (remove_at i l).
Proof. intros. apply Forall_remove_at. exact H. Qed.

Lemma prepare_up_ups : forall e s, ups_timeout (s_seq s) -> ups_timeout (s_seq (prepare_up e s)).
Proof.
  intros e s H. unfold prepare_up. destruct (kstate_eqb (es e) Up); [|auto].
  set (s1 := match s_timeout s with Some _ => _ | None => s end).
  assert (H1 : ups_timeout (s_seq s1)).
  { unfold s1. destruct (s_timeout s) as [c|]; [destruct (ct_output c)|]; auto.
    cbn. apply Forall_map. eapply Forall_impl; [|exact H].
    intros x Hx. destruct (kstate_eqb (es x) Down); [cbn; discriminate|exact Hx]. }
  destruct (s_might s1); [auto|].
  destruct (find_key (s_seq s1) (ek e)) as [i|]; [|cbn; auto].
  destruct (nth_error (s_seq s1) i) as [x|]; [|auto].
  destruct (kstate_eqb (es x) DownMatched); [|auto].
  cbn. apply Forall_remove_at. exact H1.
Qed.

Lemma clean_up_frame : forall cs fuel s,
  s_seq (clean_up_history cs fuel s) = s_seq s /\ s_client (clean_up_history cs fuel s) = s_client s /\
  s_active (clean_up_history cs fuel s) = s_active s.
Proof.
  intros cs. induction fuel as [|f IH]; intros s; cbn [clean_up_history];
    (destruct (s_hist s); [auto|]); [cbn; auto|].
  destruct (negb _); [auto|]. destruct (history_might_match cs s); [auto|].
  destruct (remove_first_ev _ _) as [h|]; [|cbn; auto]. apply (IH (set_hist h s)).
Qed.

Lemma process_active : forall cs e dev s, wf_config cs -> no_timeout_filter cs ->
  es e <> UpMatched -> in_bounds cs (s_client s) -> ups_timeout (s_seq s) ->
  active_ok cs (process_input cs e dev s).
Proof.
  intros cs e dev s Hwf Hnt He Hb Hu. unfold process_input. cbn zeta.
  set (s1 := add_to_history cs e _).
  assert (E1 : s_seq s1 = s_seq s ++ [e] /\ s_client s1 = s_client s).
  { unfold s1, add_to_history. destruct (_ && _ && _); [|auto].
    destruct (es e); match goal with |- context [if ?c then _ else _] => destruct c end; auto. }
  destruct E1 as [E1 E1']. 
  assert (Hu1 : ups_timeout (s_seq s1)).
  { rewrite E1. apply Forall_app. split; [exact Hu|]. constructor; [congruence|constructor]. }
  clearbody s1.
  pose proof (update_active_frame cs s1) as Hf. unfold same_ctx in Hf.
  set (s2 := update_active_contexts cs s1) in *.
  assert (Hu2 : ups_timeout (s_seq s2)) by (destruct Hf as (_ & _ & -> & _); exact Hu1).
  assert (Ec2 : s_client s2 = s_client s) by (destruct Hf as (-> & _); exact E1').
  clearbody s2. clear Hf.
  pose proof (prepare_up_ups e s2 Hu2) as Hu3.
  assert (Ec3 : s_client (prepare_up e s2) = s_client s).
  { unfold prepare_up. destruct (kstate_eqb (es e) Up); [|exact Ec2].
    set (s3 := match s_timeout s2 with Some _ => _ | None => s2 end).
    assert (H3 : s_client s3 = s_client s) by (unfold s3; destruct (s_timeout s2) as [c|]; [destruct (ct_output c)|]; exact Ec2).
    destruct (s_might s3); [exact H3|]. destruct (find_key (s_seq s3) (ek e)); [|exact H3].
    destruct (nth_error (s_seq s3) n) as [x|]; [|exact H3]. destruct (kstate_eqb (es x) DownMatched); exact H3. }
  set (s4 := unsuppress (prepare_up e s2)).
  assert (Hu4 : ups_timeout (s_seq s4)) by exact Hu3.
  assert (Ec4 : s_client s4 = s_client s) by exact Ec3. clearbody s4.
  destruct (loop_seq cs (weight (s_seq s4)) e dev s4) as (H5 & H5c & _).
  set (s5 := apply_loop cs _ e dev s4) in *.
  assert (Hu5 : ups_timeout (s_seq s5)) by (eapply seq_ops_ups; eauto).
  assert (Ec5 : s_client s5 = s_client s) by congruence. clearbody s5. clear H5 H5c.
  unfold finish_input. cbn zeta.
  set (s6 := if kstate_eqb (es e) Up then _ else _).
  assert (H6 : s_seq s6 = s_seq s5 /\ s_client s6 = s_client s5).
  { unfold s6. destruct (kstate_eqb (es e) Up); [|auto].
    pose proof (release_frame (ek e) None s5) as H. unfold same_rel in H. intuition. }
  destruct H6 as [H6 H6c]. clearbody s6.
  assert (Hb6 : in_bounds cs (s_client s6)) by (rewrite H6c, Ec5; exact Hb).
  destruct (eval_active_ok cs Hwf (s_seq s6) (s_client s6) [] Hb6) as [r [Hr _]]; [constructor|].
  pose proof (update_active_active cs s6 r Hr) as Ha.
  pose proof (update_active_frame cs s6) as Hf. unfold same_ctx in Hf.
  set (s7 := update_active_contexts cs s6) in *.
  assert (E7 : s_seq s7 = s_seq s5 /\ s_client s7 = s_client s6) by intuition congruence.
  destruct E7 as [E7 E7c]. clearbody s7. clear Hf.
  assert (E8 : forall s', s_seq s' = drop_up_matched (s_seq s7) -> s_client s' = s_client s7 -> s_active s' = s_active s7 ->
     active_ok cs (clean_up_history cs (length (s_hist s')) s')).
  { intros s' G1 G2 G3. destruct (clean_up_frame cs (length (s_hist s')) s') as (F1 & F2 & F3).
    constructor.
    - rewrite F1, G1, E7. apply drop_up_matched_Forall. exact Hu5.
    - rewrite F1, F2, F3, G1, G2, G3, Ha. rewrite <- Hr, E7, E7c, H6.
      apply eval_active_ext. intros c Hc. apply drop_up_filter; [exact Hu5|].
      unfold no_timeout_filter in Hnt. rewrite Forall_forall in Hnt. auto. }
  apply E8; cbn [set_seq]; destruct (s_seq (set_seq (drop_up_matched (s_seq s7)) s7)) eqn:Es; cbn in *; auto.
Qed.

Theorem update_active_inv : forall cs e dev s, wf_config cs -> no_timeout_filter cs ->
  es e <> UpMatched -> in_bounds cs (s_client s) -> active_ok cs s ->
  active_ok cs (fst (update cs e dev s)) /\ s_client (fst (update cs e dev s)) = s_client s.
Proof.
  intros cs e dev s Hwf Hnt He Hb Ha.
  assert (Hgoal : active_ok cs (apply_input cs e dev (set_exit (advance_exit e (s_exit s)) s)) /\
    s_client (apply_input cs e dev (set_exit (advance_exit e (s_exit s)) s)) = s_client s).
  2:{ destruct Hgoal as [[G1 G2] G3]. unfold update. cbn. split; [constructor; auto|exact G3]. }
  set (s0 := set_exit (advance_exit e (s_exit s)) s).
  assert (Ha0 : active_ok cs s0) by (destruct Ha; constructor; auto).
  change (s_client s) with (s_client s0) in *. clearbody s0. clear s Ha.
  unfold apply_input. pose proof (continue_frame e None s0) as Hc.
  destruct (continue_output_on_release e None s0) as [s1 go1]. cbn [fst] in Hc.
  assert (Ha1 : active_ok cs s1 /\ s_client s1 = s_client s0).
  { unfold same_app in Hc. destruct Ha0 as [G1 G2]. split; [constructor|intuition congruence].
    - destruct Hc as (_ & _ & _ & -> & _). exact G1.
    - replace (s_seq s1) with (s_seq s0) by (intuition congruence).
      replace (s_client s1) with (s_client s0) by (intuition congruence). rewrite G2. f_equal. intuition congruence. }
  destruct Ha1 as [Ha1 Ec1]. clear Hc.
  destruct (negb go1); [auto|].
  destruct (suppress_frame e s1) as (Hs & _). destruct (suppress_not_timeout e s1) as [s2 go2]. cbn [fst] in Hs.
  assert (Ha2 : active_ok cs s2 /\ s_client s2 = s_client s0).
  { unfold same_match in Hs. destruct Ha1 as [G1 G2]. split; [constructor|intuition congruence].
    - replace (s_seq s2) with (s_seq s1) by (intuition congruence). exact G1.
    - replace (s_seq s2) with (s_seq s1) by (intuition congruence).
      replace (s_client s2) with (s_client s1) by (intuition congruence). rewrite G2. f_equal. intuition congruence. }
  destruct Ha2 as [Ha2 Ec2]. clear Hs.
  destruct (negb go2); [auto|].
  pose proof (merge_repeat_frame e dev s2) as Hm. cbn zeta in Hm.
  assert (Hgo : snd (merge_repeat e dev s2) = false -> s_seq (fst (merge_repeat e dev s2)) = s_seq s2).
  { unfold merge_repeat. destruct (es e); try discriminate.
    destruct (rfind_key _ _); [|discriminate].
    repeat match goal with |- context [if ?c then _ else _] => destruct c end; cbn; try discriminate; auto. }
  destruct (merge_repeat e dev s2) as [s3 go3]. cbn [fst snd] in *.
  assert (Hu3 : ups_timeout (s_seq s3)).
  { destruct Hm as (_ & _ & _ & _ & _ & _ & _ & _ & _ & _ & _ & _ & _ & [->|[i ->]]);
      [apply Ha2|apply remove_at_ups, Ha2]. }
  assert (Ec3 : s_client s3 = s_client s0) by (destruct Hm as (-> & _); exact Ec2).
  assert (Eact : s_active s3 = s_active s2) by (destruct Hm as (_ & -> & _); reflexivity).
  destruct go3; cbn [negb].
  - assert (Hb3 : in_bounds cs (s_client s3)) by (rewrite Ec3; exact Hb).
    split; [apply process_active; auto|].
    (* the client contexts stay *)
    pose proof (update_terminates) as _. revert Ec3. clear -cs. intros Ec. rewrite <- Ec. clear Ec.
    unfold process_input, finish_input. cbn zeta.
    rewrite (proj1 (proj2 (clean_up_frame cs _ _))).
    set (s1 := add_to_history cs e _).
    assert (E1 : s_client s1 = s_client s3).
    { unfold s1, add_to_history. destruct (_ && _ && _); [|auto].
      destruct (es e); match goal with |- context [if ?c then _ else _] => destruct c end; auto. }
    set (s2 := update_active_contexts cs s1).
    assert (E2 : s_client s2 = s_client s3).
    { pose proof (update_active_frame cs s1) as H. unfold same_ctx in H. destruct H as (H & _). unfold s2. congruence. }
    set (s4 := unsuppress _).
    assert (E4 : s_client s4 = s_client s3).
    { unfold s4. rewrite <- E2. generalize s2. clear. intros s2. cbn. unfold prepare_up. destruct (kstate_eqb (es e) Up); [|reflexivity].
      set (s3 := match s_timeout s2 with Some _ => _ | None => s2 end).
      assert (H3 : s_client s3 = s_client s2) by (unfold s3; destruct (s_timeout s2) as [c|]; [destruct (ct_output c)|]; reflexivity).
      destruct (s_might s3); [exact H3|]. destruct (find_key (s_seq s3) (ek e)); [|exact H3].
      destruct (nth_error (s_seq s3) n) as [x|]; [|exact H3]. destruct (kstate_eqb (es x) DownMatched); exact H3. }
    destruct (loop_seq cs (weight (s_seq s4)) e dev s4) as (_ & E5 & _).
    set (s5 := apply_loop cs _ e dev s4) in *.
    set (s6 := if kstate_eqb (es e) Up then _ else _).
    assert (E6 : s_client s6 = s_client s5).
    { unfold s6. destruct (kstate_eqb (es e) Up); [|auto].
      pose proof (release_frame (ek e) None s5) as H. unfold same_rel in H. intuition. }
    pose proof (update_active_frame cs s6) as H. unfold same_ctx in H. destruct H as (H & _).
    set (s7 := update_active_contexts cs s6) in *.
    destruct (s_seq (set_seq (drop_up_matched (s_seq s7)) s7)); cbn; congruence.
  - split; [|exact Ec3]. destruct Ha2 as [G1 G2]. constructor; [exact Hu3|].
    rewrite (Hgo eq_refl), Ec3, Eact, <- Ec2. exact G2.
Qed.

Lemma wf_event_es : forall e, wf_event e -> es e <> UpMatched.
Proof. intros e [_ [[H _]|[H _]]]; rewrite H; discriminate. Qed.

Theorem run_active : forall cs l, wf_config cs -> no_timeout_filter cs ->
  Forall (wf_call cs) l -> Forall (fun c => is_validate c = false) l ->
  active_ok cs (fst (run cs l init_state)) /\ in_bounds cs (s_client (fst (run cs l init_state))).
Proof.
  intros cs l Hwf Hnt. induction l as [|c l IH] using rev_ind; intros Hl Hv.
  - cbn. split; constructor; auto; constructor.
  - apply Forall_app in Hl, Hv. destruct Hl as [Hl Hc], Hv as [Hv Hvc].
    destruct (IH Hl Hv) as [Ha Hb]. rewrite run_snoc. cbn [fst].
    inversion_clear Hc as [|? ? Hc' _]. inversion_clear Hvc as [|? ? Hvc' _].
    destruct c as [e dev|il|f]; cbn [do_call wf_call is_validate] in *; [| |discriminate].
    + destruct Hc' as [He Hd].
      destruct (update_active_inv cs e dev _ Hwf Hnt (wf_event_es e He) Hb Ha) as [G1 G2].
      split; [exact G1|]. rewrite G2. exact Hb.
    + unfold set_active_client_contexts. cbn.
      set (s0 := set_client il _).
      pose proof (update_active_frame cs s0) as Hf. unfold same_ctx in Hf.
      destruct (eval_active_ok cs Hwf (s_seq s0) (s_client s0) [] Hc') as [r [Hr _]]; [constructor|].
      pose proof (update_active_active cs s0 r Hr) as Hact.
      set (s1 := update_active_contexts cs s0) in *.
      split; [|destruct Hf as (-> & _); exact Hc'].
      constructor; cbn.
      * destruct Hf as (_ & _ & -> & _). apply Ha.
      * rewrite Hact, <- Hr. destruct Hf as (-> & _ & -> & _). reflexivity.
Qed.

(** * Leaving contexts (C24) *)

(** The context has a mapping for ContextActive. *)
Definition reacts (cs : list context) (ci : nat) : bool :=
  match nth_error cs ci with
  | Some c => existsb (fun i => match in_seq i with x :: _ => ek x =? k_ContextActive | [] => false end)
                      (cx_inputs c)
  | None => false
  end.

(** The key is held by the ContextActive mapping of one of the contexts. *)
Definition held_by (cs : list context) (left : list nat) (o : out_down) : Prop :=
  get_trigger_key (od_trigger o) = k_ContextActive /\
  exists ci, od_ctx o = Some ci /\ In ci left /\ reacts cs ci = true.

Lemma find_existsb : forall {A} (p : A -> bool) l,
  match find p l with Some _ => true | None => false end = existsb p l.
Proof. intros A p. induction l as [|x l IH]; [reflexivity|]. cbn. destruct (p x); [reflexivity|exact IH]. Qed.

Lemma leave_step : forall cs ci s, s_onrel s = [] -> (ci < length cs)%nat ->
  let s' := on_context_active_event cs (ev0 k_ContextActive Up) ci s in
  s_onrel s' = [] /\
  s_down s' = List.filter (fun o => negb (reacts cs ci) || keep_triggered k_ContextActive (Some ci) o) (s_down s) /\
  s_buf s' = s_buf s ++ map (fun o => ev0 (od_key o) Up)
    (List.filter (fun o => negb (od_temp o))
      (rev (List.filter (fun o => reacts cs ci && negb (keep_triggered k_ContextActive (Some ci) o)) (s_down s)))).
Proof.
  intros cs ci s Hr Hb. cbn zeta. unfold on_context_active_event, reacts.
  destruct (nth_error cs ci) as [c|] eqn:Ec; [|apply nth_error_None in Ec; lia].
  set (u := ub_unless _ s).
  assert (Hu : s_onrel u = s_onrel s /\ s_down u = s_down s /\ s_buf u = s_buf s)
    by (subst u; unfold ub_unless; destruct (forallb _ _); repeat split).
  destruct Hu as (U1 & U2 & U3). clearbody u. rewrite <- find_existsb.
  destruct (find _ _) as [i|].
  - change (es (ev0 k_ContextActive Up)) with Up. cbn iota. change (ek (ev0 k_ContextActive Up)) with k_ContextActive.
    unfold continue_output_on_release. rewrite U1, Hr. cbn [find_index].
    destruct (release_down k_ContextActive (Some ci) u) as (R1 & R2 & R3).
    rewrite R1, R2, R3, U1, U2, U3, map_map. repeat split; auto.
  - cbn [negb orb andb]. rewrite U1, U2, U3. split; [exact Hr|].
    assert (E1 : forall l : list out_down, List.filter (fun _ => true) l = l)
      by (induction l as [|x l IH]; [reflexivity|]; cbn; rewrite IH; reflexivity).
    assert (E2 : forall l : list out_down, List.filter (fun _ => false) l = [])
      by (induction l as [|x l IH]; [reflexivity|]; cbn; exact IH).
    rewrite E1, E2. cbn. rewrite app_nil_r. auto.
Qed.

Lemma keep_ctx : forall ci o,
  keep_triggered k_ContextActive (Some ci) o = false <->
  get_trigger_key (od_trigger o) = k_ContextActive /\ od_ctx o = Some ci.
Proof.
  intros ci o. unfold keep_triggered. rewrite N.eqb_refl.
  destruct (N.eqb_spec (get_trigger_key (od_trigger o)) k_ContextActive) as [E|E].
  - destruct (od_ctx o) as [x|]; cbn [opt_nat_eqb].
    + destruct (Nat.eqb_spec x ci) as [->|]; cbn; intuition congruence.
    + cbn. intuition congruence.
  - intuition congruence.
Qed.

Lemma leave_all : forall cs left s, s_onrel s = [] -> Forall (fun ci => (ci < length cs)%nat) left ->
  let s' := fold_left (fun s c => on_context_active_event cs (ev0 k_ContextActive Up) c s) left s in
  s_onrel s' = [] /\
  (forall o, In o (s_down s') <-> In o (s_down s) /\ ~ held_by cs left o) /\
  exists more, s_buf s' = s_buf s ++ more /\
    (forall e, In e more <-> exists o, In o (s_down s) /\ held_by cs left o /\ od_temp o = false /\ e = ev0 (od_key o) Up).
Proof.
  intros cs left. induction left as [|ci left IH]; intros s Hr Hb; cbn zeta.
  - cbn [fold_left]. split; [exact Hr|]. split.
    + intros o. split; [intros H; split; [exact H|intros (_ & ci & _ & [] & _)]|tauto].
    + exists []. rewrite app_nil_r. split; [reflexivity|]. intros e. split; [intros []|].
      intros (o & _ & (_ & ci & _ & [] & _) & _).
  - apply Forall_cons_iff in Hb. destruct Hb as [Hb0 Hb]. cbn [fold_left].
    destruct (leave_step cs ci s Hr Hb0) as (L1 & L2 & L3).
    set (s1 := on_context_active_event cs (ev0 k_ContextActive Up) ci s) in *. clearbody s1.
    destruct (IH s1 L1 Hb) as (I1 & I2 & more & I3 & I4).
    set (s2 := fold_left _ left s1) in *. clearbody s2. clear IH.
    assert (D : forall o, In o (s_down s1) <-> In o (s_down s) /\ ~ held_by cs [ci] o).
    { intros o. rewrite L2, filter_In. split; intros [H1 H2]; (split; [exact H1|]).
      - intros (T & c & C1 & [C2|[]] & C3). subst c. rewrite C3 in H2. cbn in H2.
        pose proof (proj2 (keep_ctx ci o) (conj T C1)) as K. congruence.
      - destruct (reacts cs ci) eqn:R; [|reflexivity]. cbn.
        destruct (keep_triggered _ _ o) eqn:K; [reflexivity|]. exfalso. apply H2.
        apply keep_ctx in K. destruct K as [K1 K2]. split; [exact K1|]. exists ci. cbn. auto. }
    assert (B : forall e, In e (map (fun o => ev0 (od_key o) Up) (List.filter (fun o => negb (od_temp o))
      (rev (List.filter (fun o => reacts cs ci && negb (keep_triggered k_ContextActive (Some ci) o)) (s_down s))))) <->
      exists o, In o (s_down s) /\ held_by cs [ci] o /\ od_temp o = false /\ e = ev0 (od_key o) Up).
    { intros e. rewrite in_map_iff. split.
      - intros (o & <- & H). apply filter_In in H. destruct H as [H T]. apply in_rev, filter_In in H.
        destruct H as [H1 H2]. apply andb_prop in H2. destruct H2 as [H2 H3].
        exists o. split; [exact H1|]. split; [|split; [destruct (od_temp o); [discriminate|reflexivity]|reflexivity]].
        apply negb_true_iff in H3. apply keep_ctx in H3. destruct H3 as [K1 K2]. split; [exact K1|].
        exists ci. cbn. auto.
      - intros (o & H1 & (T & c & C1 & [C2|[]] & C3) & H3 & ->). subst c. exists o. split; [reflexivity|].
        apply filter_In. split; [|rewrite H3; reflexivity]. apply -> in_rev. apply filter_In. split; [exact H1|].
        rewrite C3, (proj2 (keep_ctx ci o) (conj T C1)). reflexivity. }
    assert (S0 : forall o, held_by cs (ci :: left) o <-> held_by cs [ci] o \/ held_by cs left o).
    { intros o. unfold held_by. split.
      - intros (T & c & C1 & [C2|C2] & C3); [left|right]; (split; [exact T|]); exists c; cbn; auto.
      - intros [(T & c & C1 & [C2|[]] & C3)|(T & c & C1 & C2 & C3)]; (split; [exact T|]); exists c; cbn; auto. }
    assert (Hdec : forall o, held_by cs [ci] o \/ ~ held_by cs [ci] o).
    { intros o. destruct (keep_triggered k_ContextActive (Some ci) o) eqn:K.
      - right. intros (T & c & C1 & [C2|[]] & C3). subst c. pose proof (proj2 (keep_ctx ci o) (conj T C1)). congruence.
      - apply keep_ctx in K. destruct K as [K1 K2]. destruct (reacts cs ci) eqn:R.
        + left. split; [exact K1|]. exists ci. cbn. auto.
        + right. intros (T & c & C1 & [C2|[]] & C3). subst c. congruence. }
    split; [exact I1|]. split.
    + intros o. rewrite I2, D, S0. tauto.
    + eexists. split; [rewrite I3, L3, <- app_assoc; reflexivity|]. intros e. rewrite in_app_iff, B, I4. split.
      * intros [(o & H1 & H2 & H3)|(o & H1 & H2 & H3)]; exists o; rewrite S0; [tauto|].
        apply D in H1. tauto.
      * intros (o & H1 & H2 & H3). apply S0 in H2. destruct (Hdec o) as [Hd|Hd].
        -- left. exists o. tauto.
        -- right. exists o. rewrite D. tauto.
Qed.

(** When contexts are only left, exactly what their ContextActive mappings hold is released. *)
Theorem leaving_releases : forall cs idx s curr,
  s_onrel s = [] -> incr idx -> incr (s_active s) -> Forall (fun ci => (ci < length cs)%nat) (s_active s) ->
  eval_active cs (s_seq s) idx [] = Some curr -> incl curr (s_active s) ->
  let left := List.filter (fun x => negb (existsb (Nat.eqb x) curr)) (s_active s) in
  let (s', out) := set_active_client_contexts cs idx (set_buf [] s) in
  (forall o, In o (s_down s') <-> In o (s_down s) /\ ~ held_by cs left o) /\
  (forall e, In e out <-> exists o, In o (s_down s) /\ held_by cs left o /\ od_temp o = false /\ e = ev0 (od_key o) Up).
Proof.
  intros cs idx s curr Hr Hidx Ha Hb He Hinc left. unfold set_active_client_contexts.
  set (s0 := set_client idx (set_buf [] s)).
  assert (F : s_onrel s0 = [] /\ s_active s0 = s_active s /\ s_seq s0 = s_seq s /\ s_client s0 = idx /\
              s_down s0 = s_down s /\ s_buf s0 = []) by (subst s0; repeat split; exact Hr).
  clearbody s0. destruct F as (F1 & F2 & F3 & F4 & F5 & F6).
  unfold update_active_contexts. rewrite F2, F3, F4, He.
  assert (Hi : incr curr).
  { eapply eval_active_incr; [exact Hidx|constructor| |exact He]. intros b i g []. }
  rewrite !toggled_spec by assumption. fold left.
  assert (E0 : List.filter (fun x => negb (existsb (Nat.eqb x) (s_active s))) curr = []).
  { clear - Hinc. induction curr as [|x l IH]; [reflexivity|]. cbn.
    assert (Hx : existsb (Nat.eqb x) (s_active s) = true).
    { apply existsb_exists. exists x. split; [apply Hinc; left; reflexivity|apply Nat.eqb_refl]. }
    rewrite Hx. cbn. apply IH. intros y Hy. apply Hinc. right. exact Hy. }
  rewrite E0. cbn [fold_left]. set (s1 := set_active curr s0).
  assert (G : s_onrel s1 = [] /\ s_down s1 = s_down s /\ s_buf s1 = []) by (subst s1; repeat split; auto).
  destruct G as (G1 & G2 & G3). clearbody s1.
  assert (Hl : Forall (fun ci => (ci < length cs)%nat) left).
  { subst left. apply Forall_forall. intros x Hx. apply filter_In in Hx. rewrite Forall_forall in Hb. apply Hb. tauto. }
  destruct (leave_all cs left s1 G1 Hl) as (L1 & L2 & more & L3 & L4).
  set (s2 := fold_left _ left s1) in *. clearbody s2.
  unfold cancel_inactive_output_on_release. cbn [s_buf s_down set_buf set_onrel].
  rewrite L3, G3. cbn [app]. rewrite <- G2. split; [exact L2|exact L4].
Qed.
