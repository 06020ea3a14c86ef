(** Which mapping is applied: the properties C15, C16, C18, C19, C23 and C24 as theorems,
    with their assumptions and a non-trivial instance beside each. *)
From Coq Require Import String List Arith NArith ZArith Bool Lia Sorting.Permutation Sorted.
From Verif Require Import Base Key Match Stage Text ParseSeq Config Replay.
From Verif Require Import MatchProofs StageFrame StageTerm StageSpec StageSafe StageOut StageRel StageRoute
  StageProperties.
Import ListNotations.
Local Open Scope N_scope.

(** ** C15 The first matching mapping in file order wins *)
Theorem C15_first_mapping_decides : forall cs l first sq dev is_key_up,
  wf_config cs -> Forall (wf_call cs) l -> wheels_ok l -> valid_device dev = true ->
  Forall (fun e => ek e <> k_none) sq ->
  let s := fst (run cs l init_state) in
  let f := decides cs (s_active s) first sq (s_hist s) dev in
  match snd (match_input cs first sq dev is_key_up s) with
  | RNo => Forall (fun x => f x = None) (candidates cs (s_active s) dev)
  | RMight inp ci => exists before c i after,
      candidates cs (s_active s) dev = before ++ (ci, c, i) :: after /\ in_seq i = inp /\
      Forall (fun x => f x = None) before /\ f (ci, c, i) = Some DMight
  | RMatch r o inp ci => exists before c i after,
      candidates cs (s_active s) dev = before ++ (ci, c, i) :: after /\ in_seq i = inp /\
      Forall (fun x => f x = None) before /\ f (ci, c, i) = Some (DMatch r o)
  end.
Proof.
  intros cs l first sq dev u Hwf Hl Hw Hd Hq s f.
  destruct (reach_inv cs Hwf l Hl Hw) as [m [_ _ _ Ha _ Hh _]].
  fold s in Ha, Hh.
  rewrite (match_input_first cs Hwf first sq dev u s Ha Hq Hh Hd). apply first_decision_spec.
Qed.
Print Assumptions C15_first_mapping_decides.

(** Only mappings of active contexts which accept the device are candidates. *)
Theorem C15_candidates : forall cs act dev ci c i,
  In (ci, c, i) (candidates cs act dev) <->
  In ci act /\ nth_error cs ci = Some c /\ device_matches_filter c dev = true /\ In i (cx_inputs c).
Proof. exact candidates_In. Qed.
Print Assumptions C15_candidates.

Definition cfg3 : list context := load (lines ["A >> X"; "A B >> Y"; "A >> Z"; "B A >> Z"; "B >> D"])%string.

Example C15_case :
  let s := fst (run cfg3 [CContexts [0%nat]] init_state) in
  length (candidates cfg3 (s_active s) 0) = 5%nat /\
  (exists r o ci, snd (match_input cfg3 true [ev0 30 Down] 0 false s) = RMatch r o [ev0 30 Down; ev0 30 UpAsync] ci) /\
  fmt (snd (played cfg3 "+A +B")) = "+X +Y"%string /\
  fmt (snd (played cfg3 "+B -B +A")) = "+Z"%string.
Proof.
  cbn zeta. split; [vm_compute; reflexivity|]. split; [|split; vm_compute; reflexivity].
  eexists _, _, _. vm_compute. reflexivity.
Qed.

(** ** C16 The last active context overrides a command *)
Theorem C16_last_context_wins : forall cs act idx,
  wf_config cs -> Forall (fun i => (i < length cs)%nat) act ->
  Forall (fun c => NoDup (map cm_idx (cx_commands c))) cs ->
  match find_command_output (new_stage cs) (rev act) idx with
  | LFound _ o => exists a x b c, act = a ++ x :: b /\ block_of cs x c /\ maps_command c idx o /\
      Forall (fun y => forall c' o', block_of cs y c' -> ~ maps_command c' idx o') b
  | LNone => Forall (fun y => forall c' o', block_of cs y c' -> ~ maps_command c' idx o') act
  | LUB => False
  end.
Proof. exact find_command_last. Qed.
Print Assumptions C16_last_context_wins.

(** An unmapped command makes its mapping undecided (the next mapping is tried). *)
Theorem C16_unmapped_no_match : forall cs act first sq h dev ci c i,
  find_output cs act ci c (in_out i) = LNone ->
  decides cs act first sq h dev (ci, c, i) = None \/
  decides cs act first sq h dev (ci, c, i) = Some DMight.
Proof.
  intros cs act first sq h dev ci c i H. unfold decides.
  destruct (negb _ || _); [|auto]. destruct (match_keys _ _) as [[[[| |] anys] t]|]; auto.
  - destruct (first && _); auto.
  - rewrite H. auto.
Qed.
Print Assumptions C16_unmapped_no_match.

Definition cfg4_text : string := (lines
  ["A >> foo"; "foo >> X"; "[modifier = ""B""]"; "foo >> Y"; "[modifier = ""C""]"; "foo >> Z"])%string.
Definition cfg4 : list context := load cfg4_text.
Definition cfg4_raw : list context :=
  match parse_cfg (T cfg4_text) with POk c => map stage_context (cfg_contexts c) | _ => [] end.
Example C16_case :
  wf_config cfg4_raw /\ Forall (fun c => NoDup (map cm_idx (cx_commands c))) cfg4_raw /\
  length cfg4_raw = 3%nat /\
  fmt (snd (played cfg4 "+A")) = "+X"%string /\
  fmt (snd (played cfg4 "+B +A")) = "+B +Y"%string /\
  fmt (snd (played cfg4 "+B +C +A")) = "+B +C +Z"%string.
Proof.
  split; [apply wf_config_dec; vm_compute; reflexivity|].
  split; [vm_compute; repeat constructor; intros []|].
  repeat split; vm_compute; reflexivity.
Qed.

(** ** C18 The emergency exit *)

(** It is never taken otherwise. *)
Theorem C18_exit_only_when_typed : forall cs l,
  should_exit (fst (run cs l init_state)) = true -> exit_typed (keyboard_events l).
Proof.
  intros cs l H. apply should_exit_pos in H.
  pose proof (pos_typed _ (keyboard_events_keyboard l)) as Ht. rewrite H in Ht. exact Ht.
Qed.
Print Assumptions C18_exit_only_when_typed.

(** It always works: whatever the configuration and whatever happened before, when a
    press of a key which is already down is its repeat. *)
Theorem C18_exit_always_works : forall cs l,
  repeats_last (keyboard_events l) -> exit_typed (keyboard_events l) ->
  should_exit (fst (run cs l init_state)) = true.
Proof.
  intros cs l Hr Ht. apply should_exit_pos. apply exit_typed_pos; auto using keyboard_events_keyboard.
Qed.
Print Assumptions C18_exit_always_works.

(** Without this the exit may be missed: a second ShiftLeft press (of another keyboard)
    after Escape does not begin the sequence anew. *)
Theorem C18_second_keyboard_refuted : exists l,
  exit_typed (keyboard_events l) /\ forall cs, should_exit (fst (run cs l init_state)) = false.
Proof.
  exists (map (fun k => CInput (ev0 k Down) 0) [ShiftLeft; Escape; ShiftLeft; Escape; K_K]).
  split.
  - exists (map (fun k => ev0 k Down) [ShiftLeft; Escape]), [ev0 ShiftLeft Down], [ev0 Escape Down], [ev0 K_K Down].
    split; [vm_compute; reflexivity|]. split; [|split]; split; try discriminate; repeat constructor.
  - intros cs. destruct (should_exit _) eqn:E; [|reflexivity]. apply should_exit_pos in E.
    vm_compute in E. discriminate.
Qed.
Print Assumptions C18_second_keyboard_refuted.

Lemma repeats_last_dec : forall h,
  forallb (fun n => match skipn n h with
                    | e :: _ => negb (kstate_eqb (es e) Down) || negb (is_down_after (firstn n h) (ek e)) ||
                                match back (firstn n h) with Some x => ek x =? ek e | None => false end
                    | [] => true
                    end) (seq 0 (length h)) = true -> repeats_last h.
Proof.
  intros h H h1 e h2 E Hd Hi. rewrite forallb_forall in H.
  assert (Hn : In (length h1) (seq 0 (length h))).
  { apply List.in_seq. rewrite E, app_length. cbn. lia. }
  specialize (H _ Hn). rewrite E in H.
  rewrite skipn_app, skipn_all, Nat.sub_diag in H. cbn [app skipn] in H.
  rewrite firstn_app, firstn_all, Nat.sub_diag in H. cbn [firstn] in H. rewrite app_nil_r in H.
  rewrite Hd, Hi in H. change (kstate_eqb Down Down) with true in H. cbn [negb orb] in H. destruct (back h1) as [x|] eqn:Eb; [|discriminate].
  apply StageOut.back_split in Eb. apply N.eqb_eq in H. eauto.
Qed.

Example C18_case :
  let l := input_calls cfg1 "+A +ShiftLeft +ShiftLeft +Escape +Escape +K" in
  repeats_last (keyboard_events l) /\ exit_typed (keyboard_events l) /\
  should_exit (fst (run cfg1 l init_state)) = true /\
  should_exit (fst (played cfg1 "+ShiftLeft +Escape -Escape +K")) = false.
Proof.
  cbn zeta. split; [apply repeats_last_dec; vm_compute; reflexivity|].
  split; [|split; vm_compute; reflexivity].
  exists [ev0 30 Down], [ev0 ShiftLeft Down; ev0 ShiftLeft Down], [ev0 Escape Down; ev0 Escape Down], [ev0 K_K Down].
  split; [vm_compute; reflexivity|]. split; [|split]; split; try discriminate; repeat constructor.
Qed.

(** ** C19 Validation forgets keys which are not down *)
Theorem C19_forgets_exactly : forall is_down s,
  let s' := validate_state is_down s in
  (forall e, In e (s_seq s') <-> In e (s_seq s) /\ (is_device_key (ek e) = true -> is_down (ek e) = true)) /\
  (forall o, In o (s_down s') <-> In o (s_down s) /\
     (is_device_key (od_key o) = true -> is_down (get_trigger_key (od_trigger o)) = true)) /\
  (exists p q, s_seq s' = List.filter p (s_seq s) /\ s_down s' = List.filter q (s_down s)) /\
  s_client s' = s_client s /\ s_active s' = s_active s /\ s_exit s' = s_exit s /\
  s_hist s' = s_hist s /\ s_onrel s' = s_onrel s /\ s_timeout s' = s_timeout s /\ s_buf s' = s_buf s.
Proof.
  intros is_down s. cbn zeta. destruct (validate_spec is_down s) as [H1 H2].
  assert (Hb : forall a b : bool, negb a || b = true <-> (a = true -> b = true)) by (intros [] []; cbn; intuition).
  split; [|split; [|split; [|repeat split]]].
  - intros e. rewrite H1, filter_In, Hb. reflexivity.
  - intros o. rewrite H2, filter_In, Hb. reflexivity.
  - eexists _, _. split; [exact H1|exact H2].
Qed.
Print Assumptions C19_forgets_exactly.

(** Repeating it changes nothing. *)
Theorem C19_idempotent : forall is_down s,
  validate_state is_down (validate_state is_down s) = validate_state is_down s.
Proof.
  intros is_down s.
  assert (Hf : forall A (p : A -> bool) l, List.filter p (List.filter p l) = List.filter p l).
  { intros A p l. induction l as [|x l IH]; [reflexivity|]. cbn [List.filter]. destruct (p x) eqn:E; [|exact IH].
    cbn [List.filter]. rewrite E, IH. reflexivity. }
  destruct s as [f1 f2 f3 sq f5 f6 f7 f8 f9 dn f11 f12 f13 f14 f15 f16].
  change (validate_state is_down (St f1 f2 f3 sq f5 f6 f7 f8 f9 dn f11 f12 f13 f14 f15 f16)) with
    (St f1 f2 f3 (List.filter (fun e => negb (is_device_key (ek e) && negb (is_down (ek e)))) sq) false f6 f7 f8 f9
       (List.filter (fun o => negb (is_device_key (od_key o) && negb (is_down (get_trigger_key (od_trigger o))))) dn)
       f11 f12 f13 f14 f15 f16).
  set (p := fun e => negb (is_device_key (ek e) && negb (is_down (ek e)))).
  set (q := fun o => negb (is_device_key (od_key o) && negb (is_down (get_trigger_key (od_trigger o))))).
  transitivity (St f1 f2 f3 (List.filter p (List.filter p sq)) false f6 f7 f8 f9
                   (List.filter q (List.filter q dn)) f11 f12 f13 f14 f15 f16); [reflexivity|].
  rewrite (Hf _ p), (Hf _ q). reflexivity.
Qed.
Print Assumptions C19_idempotent.

Example C19_case :
  let s := fst (played cfg1 "+A -A +B +J +E") in
  length (s_seq s) = 3%nat /\ length (s_down s) = 2%nat /\
  map ek (s_seq (validate_state (fun k => k =? 18) s)) = [18] /\
  s_down (validate_state (fun k => k =? 18) s) = [].
Proof. repeat split; vm_compute; reflexivity. Qed.

(** ** C23 Contexts with a device filter only see their devices *)
Theorem C23_filter_evaluated : forall cs ds c i,
  (length ds <= 64)%nat -> (i < 64)%nat -> In c (evaluate_device_filters ds cs) ->
  exists c0, In c0 cs /\ cx_inputs c = cx_inputs c0 /\
  (device_matches_filter c (Z.of_nat i) = true <->
   (ctx_has_device_filter c0 = true ->
    exists d, nth_error ds i = Some d /\ filter_matches (cx_devf c0) (dev_name d) = true /\
              filter_matches (cx_devidf c0) (dev_id d) = true)).
Proof.
  intros cs ds c i Hl Hi Hc. unfold evaluate_device_filters in Hc. apply in_map_iff in Hc.
  destruct Hc as [c0 [E Hc0]]. exists c0. split; [exact Hc0|]. split; [subst c; reflexivity|].
  assert (Ec : c = evaluated ds c0) by (rewrite <- E; reflexivity).
  rewrite Ec, device_filter_spec by assumption. unfold device_accepted.
  destruct (ctx_has_device_filter c0); cbn [negb orb]; [|intuition discriminate].
  destruct (nth_error ds i) as [d|]; [|split; [discriminate|intros H; destruct (H eq_refl) as [d [H1 _]]; discriminate]].
  rewrite andb_true_iff. split.
  - intros [H1 H2] _. eauto.
  - intros H. destruct (H eq_refl) as (d' & H1 & H2 & H3). injection H1 as <-. auto.
Qed.
Print Assumptions C23_filter_evaluated.

(** A mapping that is applied accepts the device. *)
Theorem C23_applied_accepts_device : forall cs l first sq dev is_key_up r o inp ci,
  wf_config cs -> Forall (wf_call cs) l -> wheels_ok l -> valid_device dev = true ->
  Forall (fun e => ek e <> k_none) sq ->
  snd (match_input cs first sq dev is_key_up (fst (run cs l init_state))) = RMatch r o inp ci ->
  exists c i, nth_error cs ci = Some c /\ In i (cx_inputs c) /\ in_seq i = inp /\
              In ci (s_active (fst (run cs l init_state))) /\ device_matches_filter c dev = true.
Proof.
  intros cs l first sq dev u r o inp ci Hwf Hl Hw Hd Hq H.
  pose proof (C15_first_mapping_decides cs l first sq dev u Hwf Hl Hw Hd Hq) as Hs. cbn zeta in Hs.
  rewrite H in Hs. destruct Hs as (a & c & i & b & E & Hi & _ & _).
  assert (Hin : In (ci, c, i) (candidates cs (s_active (fst (run cs l init_state))) dev)).
  { rewrite E. apply in_or_app. right. left. reflexivity. }
  apply candidates_In in Hin. exists c, i. intuition.
Qed.
Print Assumptions C23_applied_accepts_device.

Definition is_mouse_name (t : list N) : bool := match t with 77 :: _ => true | _ => false end.
Definition cfg5 : list context :=
  evaluate_device_filters [Dev [75] []; Dev [77] []]
    [Ctx [Inp [ev0 30 Down] 0] [[ev0 45 Down]] [] (Some is_mouse_name) None [] 0 false false].
Example C23_case :
  fmt (snd (run cfg5 [CContexts [0%nat]; CInput (ev0 30 Down) 0] init_state)) = "+A"%string /\
  fmt (snd (run cfg5 [CContexts [0%nat]; CInput (ev0 30 Down) 1] init_state)) = "+X"%string.
Proof. split; vm_compute; reflexivity. Qed.

(** ** C24 Modifier filters follow the keys *)
Theorem C24_active_contexts : forall cs l,
  wf_config cs -> no_timeout_filter cs -> Forall (wf_call cs) l ->
  Forall (fun c => is_validate c = false) l ->
  let s := fst (run cs l init_state) in
  forall f, In f (s_active s) <-> activates cs (buffered s) (s_client s) f.
Proof.
  intros cs l Hwf Hnt Hl Hv s f. destruct (run_active cs l Hwf Hnt Hl Hv) as [[_ Ha] _]. fold s in Ha.
  rewrite (eval_active_In _ _ _ _ _ Ha f). cbn [In]. unfold buffered. intuition.
Qed.
Print Assumptions C24_active_contexts.

(** ContextActive is sent to exactly the blocks which changed: released for those left,
    then pressed for those entered. *)
Theorem C24_context_active_events : forall cs s curr,
  incr (s_client s) -> incr (s_active s) -> eval_active cs (s_seq s) (s_client s) [] = Some curr ->
  let left := List.filter (fun x => negb (existsb (Nat.eqb x) curr)) (s_active s) in
  let entered := List.filter (fun x => negb (existsb (Nat.eqb x) (s_active s))) curr in
  update_active_contexts cs s =
  fold_left (fun s c => on_context_active_event cs (ev0 k_ContextActive Down) c s) entered
    (fold_left (fun s c => on_context_active_event cs (ev0 k_ContextActive Up) c s) left
       (set_active curr s)).
Proof.
  intros cs s curr Hc Ha He. cbn zeta. unfold update_active_contexts. rewrite He.
  assert (Hi : incr curr).
  { eapply eval_active_incr; [exact Hc|constructor| |exact He]. intros b i g []. }
  rewrite !toggled_spec by assumption. reflexivity.
Qed.
Print Assumptions C24_context_active_events.

(** When contexts are only left, exactly the keys held by their ContextActive mappings are
    released; those of other contexts stay down. *)
Theorem C24_leaving_releases : forall cs idx s curr,
  s_onrel s = [] -> incr idx -> incr (s_active s) -> Forall (fun ci => (ci < length cs)%nat) (s_active s) ->
  eval_active cs (s_seq s) idx [] = Some curr -> incl curr (s_active s) ->
  let left := List.filter (fun x => negb (existsb (Nat.eqb x) curr)) (s_active s) in
  let (s', out) := set_active_client_contexts cs idx (set_buf [] s) in
  (forall o, In o (s_down s') <-> In o (s_down s) /\ ~ held_by cs left o) /\
  (forall e, In e out <-> exists o, In o (s_down s) /\ held_by cs left o /\ od_temp o = false /\
                                    e = ev0 (od_key o) Up).
Proof. exact leaving_releases. Qed.
Print Assumptions C24_leaving_releases.

Definition cfg7 : list context := load (lines ["A >> A"; "[title = ""a""]"; "ContextActive >> X";
                                               "[title = ""b""]"; "ContextActive >> Y"])%string.
Example C24_leaving_case :
  let s := fst (run cfg7 [CContexts [0; 1; 2]%nat] init_state) in
  s_onrel s = [] /\ map od_key (s_down s) = [45; 21] /\
  s_active s = [0; 1; 2]%nat /\ eval_active cfg7 (s_seq s) [0; 2]%nat [] = Some [0; 2]%nat /\
  fmt (snd (set_active_client_contexts cfg7 [0; 2]%nat s)) = "-X"%string.
Proof. vm_compute. repeat split; auto. Qed.

Definition cfg6 : list context := load (lines ["C A >> Y"; "[modifier = ""C""]"; "B >> X"; "ContextActive >> Z"])%string.

Example C24_case :
  wf_config cfg6 /\ no_timeout_filter cfg6 /\
  fmt (snd (played cfg6 "+D +B -B")) = "+D +B -B"%string /\
  fmt (snd (played cfg6 "+C")) = "+Z"%string /\
  fmt (snd (played cfg6 "+C +B -B -C")) = "+Z +C +X -X -C -Z"%string.
Proof.
  split; [apply wf_config_dec; vm_compute; reflexivity|].
  split; [vm_compute; repeat constructor; discriminate|].
  repeat split; vm_compute; reflexivity.
Qed.

(** The keys counted as pressed are the buffered ones.  A key which is held back by
    another mapping counts as pressed after its release. *)
Theorem C24_released_key_refuted : exists t l,
  let cs := load t in
  is_down_after l 46 = false /\
  fmt (snd (run cs (CContexts (seq 0 (length cs)) :: map (fun e => CInput e 0) l) init_state))
    = "+Z +C -C +X -Z"%string /\
  l = [ev0 46 Down; ev0 46 Up; ev0 48 Down].
Proof.
  exists (lines ["C A >> Y"; "[modifier = ""C""]"; "B >> X"; "ContextActive >> Z"])%string,
         [ev0 46 Down; ev0 46 Up; ev0 48 Down].
  cbn zeta. repeat split; vm_compute; reflexivity.
Qed.
Print Assumptions C24_released_key_refuted.

(** Validation forgets keys without deactivating the contexts which depend on them. *)
Theorem C24_validate_refuted :
  let s := fst (run cfg6 [CContexts [0%nat; 1%nat]; CInput (ev0 46 Down) 0; CValidate (fun _ => false)] init_state) in
  s_seq s = [] /\ s_active s = [0%nat; 1%nat] /\
  (forall c, nth_error cfg6 1 = Some c -> ~ enabled (buffered s) c).
Proof.
  set (s := fst (run cfg6 _ init_state)).
  assert (E : s_seq s = []) by (vm_compute; reflexivity).
  split; [exact E|]. split; [vm_compute; reflexivity|].
  intros c Hc [H _]. unfold buffered in H. rewrite E in H.
  vm_compute in Hc. injection Hc as <-. cbn [cx_inv cx_mods] in H.
  destruct H as [H _]. specialize (H eq_refl _ (or_introl eq_refl)). cbn [ek es map In] in H.
  destruct H as [_ H]. apply H. discriminate.
Qed.
Print Assumptions C24_validate_refuted.
