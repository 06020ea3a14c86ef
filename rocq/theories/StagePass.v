(** A stage whose active mappings just replace keys (C11, C12). *)
From Coq Require Import List Arith NArith ZArith Bool Lia Sorted.
From Verif Require Import Base Key Match Stage StageSpec PassSpec.
Import ListNotations.
Local Open Scope N_scope.

(** * Matching *)

Definition used (l : sequence) : Prop := Forall (fun x => es x = DownMatched) l.

Lemma device_key_real : forall k, is_device_key k = true ->
  k <> k_none /\ k <> k_any /\ k <> k_timeout /\ is_virtual_key k = false /\ k <> k_ContextActive.
Proof.
  intros k H. assert (Hr : 0 < k /\ k <= last_keyboard_key \/ is_mouse_button k = true \/ is_mouse_wheel k = true).
  { unfold is_device_key, is_keyboard_key in H.
    destruct (is_mouse_button k), (is_mouse_wheel k); auto. left.
    rewrite !orb_false_r, !andb_true_r in H. apply andb_prop in H. destruct H as [H1 H2].
    apply N.ltb_lt in H1. apply N.leb_le in H2. auto. }
  assert (Hb : 0 < k /\ k <= 0xEFFF).
  { destruct Hr as [[H1 H2]|[H1|H1]]; [unfold last_keyboard_key in H2; lia| |];
      unfold is_mouse_button, is_mouse_wheel, in_range in H1; apply andb_prop in H1; destruct H1 as [H1 H2];
      apply N.leb_le in H1, H2; unfold ButtonLeft, ButtonForward, WheelUp, WheelRight in *; lia. }
  clear Hr. unfold k_none, k_any, k_timeout, k_ContextActive, is_virtual_key, in_range, first_virtual.
  repeat split; try lia. apply andb_false_intro1. apply N.leb_gt. lia.
Qed.

Definition simple (a : key) : sequence := [ev0 a Down; ev0 a UpAsync].

Definition key_event (e : event) : Prop := is_device_key (ek e) = true /\ (es e = Down \/ es e = Up).

Lemma unif_key_device : forall a b, is_device_key a = true -> is_device_key b = true ->
  unif_key a b = (a =? b).
Proof.
  intros a b Ha Hb. apply device_key_real in Ha, Hb. destruct Ha as (H1 & H2 & H3 & _), Hb as (H4 & H5 & H6 & _).
  unfold unif_key. apply N.eqb_neq in H1, H2, H3, H4, H5, H6. rewrite H1, H2, H3, H4, H5, H6. cbn.
  destruct (a =? b); reflexivity.
Qed.

Lemma unif_event_device : forall e a st, is_device_key (ek e) = true -> is_device_key a = true ->
  unif_event e (ev0 a st) = (ek e =? a) && unif_state (es e) st.
Proof.
  intros e a st He Ha. unfold unif_event. cbn [ev0 ek es].
  rewrite unif_key_device by assumption. apply device_key_real in He, Ha.
  destruct He as (_ & H2 & H3 & _), Ha as (_ & H5 & _ & _).
  apply N.eqb_neq in H2, H3, H5. rewrite H2, H3, H5. cbn [andb]. destruct (ek e =? a); reflexivity.
Qed.

Lemma unif_event_none : forall e, unif_event e matches_none = false.
Proof. intros e. unfold unif_event, unif_key. cbn [ek matches_none]. rewrite orb_true_r. cbn [negb]. destruct (_ && _); [reflexivity|]. destruct (_ && _); reflexivity. Qed.
Lemma unif_none_event : forall e, unif_event matches_none e = false.
Proof. intros e. unfold unif_event, unif_key. cbn [ek matches_none]. cbn [N.eqb k_none orb negb]. destruct (_ && _); [reflexivity|]. destruct (_ && _); reflexivity. Qed.

(** A mapping of key [a], its press already found. *)
Lemma match_rest : forall a l fuel e any n d, is_device_key a = true -> used l ->
  Forall (fun x => is_device_key (ek x) = true) l -> key_event e -> ek e <> a ->
  (length l < fuel)%nat ->
  match_loop fuel [] (l ++ [e]) (MS [ev0 a UpAsync] [] [] any false n d) = Some (NoMatch, any, None).
Proof.
  intros a l. induction l as [|x l IH]; intros fuel e any n d Ha Hu Hk [He1 He2] Hne Hf;
    (destruct fuel as [|fuel]; [cbn in Hf; lia|]).
  - cbn [app match_loop hd]. unfold match_step. cbn [ms_not ms_async ms_ign ms_any ms_nmm ms_e ms_down].
    cbn [matches_none es ek]. rewrite andb_false_r. cbn [kstate_eqb orb andb negb].
    change (k_none =? k_any) with false. change (k_none =? k_timeout) with false.
    rewrite unif_event_none. cbn [find_index]. rewrite unif_none_event. cbn [ev0 es ek andb orb].
    rewrite unif_key_device by assumption. apply N.eqb_neq in Hne. rewrite Hne, andb_false_r.
    destruct (device_key_real _ He1) as (_ & _ & Ht & _). apply N.eqb_neq in Ht. rewrite Ht.
    destruct He2 as [E|E]; rewrite E; reflexivity.
  - inversion_clear Hu as [|? ? Hx Hu']. inversion_clear Hk as [|? ? Hkx Hk'].
    cbn [app match_loop hd]. unfold match_step. cbn [ms_not ms_async ms_ign ms_any ms_nmm ms_e ms_down].
    cbn [matches_none es ek]. rewrite andb_false_r. cbn [kstate_eqb orb andb negb].
    change (k_none =? k_any) with false. change (k_none =? k_timeout) with false.
    rewrite unif_event_none. cbn [find_index ev0 es ek]. rewrite Hx. cbn [kstate_eqb andb orb tl_if tl].
    rewrite !orb_false_r. apply IH; auto; [split; auto|cbn in Hf; lia].
Qed.

Lemma match_simple : forall a l e, is_device_key a = true -> used l ->
  Forall (fun x => is_device_key (ek x) = true) l -> key_event e -> ~ In (ek e) (map ek l) ->
  match_keys (simple a) (l ++ [e]) =
    Some (if event_eqb (ev0 (ek e) (es e)) (ev0 a Down) then Matched else NoMatch, [], None).
Proof.
  intros a l e Ha. unfold match_keys.
  assert (G : forall fuel d, used l ->
    Forall (fun x => is_device_key (ek x) = true) l -> key_event e -> ~ In (ek e) (map ek l) ->
    (length l + 3 <= fuel)%nat ->
    match_loop fuel (simple a) (l ++ [e]) (MS [] [] [] [] false 0 d) =
    Some (if event_eqb (ev0 (ek e) (es e)) (ev0 a Down) then Matched else NoMatch, [], None)).
  { induction l as [|x l IH]; intros fuel d Hu Hk [He1 He2] Hn Hf.
    - destruct fuel as [|[|[|fuel]]]; cbn [length] in Hf; try lia. cbn [app match_loop hd simple].
      unfold match_step. cbn [ms_not ms_async ms_ign ms_any ms_nmm ms_e ms_down ev0 es ek].
      cbn [remove_key List.filter mem_key existsb]. rewrite andb_false_r. cbn [kstate_eqb orb andb negb].
      rewrite !andb_false_r. cbn [andb]. fold (ev0 a Down). rewrite unif_event_device by assumption.
      assert (Ha' := device_key_real _ Ha). destruct Ha' as (_ & Hany & Ht & _).
      destruct (device_key_real _ He1) as (_ & _ & Ht2 & _).
      apply N.eqb_neq in Hany, Ht, Ht2. unfold event_eqb. cbn [ev0 ek es ev]. rewrite N.eqb_refl, andb_true_r.
      destruct (N.eqb_spec (ek e) a) as [E|E]; cbn [andb].
      + destruct He2 as [Es|Es]; rewrite Es; cbn [unif_state norm_state kstate_eqb].
        * rewrite Hany. reflexivity.
        * rewrite Ht, Ht2. cbn [andb find_index kstate_eqb orb unmatched_async_pair]. reflexivity.
      + rewrite Ht, Ht2. cbn [andb find_index kstate_eqb orb unmatched_async_pair].
        destruct He2 as [Es|Es]; rewrite Es; reflexivity.
    - inversion_clear Hu as [|? ? Hx Hu']. inversion_clear Hk as [|? ? Hkx Hk'].
      destruct fuel as [|[|fuel]]; cbn [length] in Hf; try lia. cbn [app match_loop hd simple].
      unfold match_step at 1. cbn [ms_not ms_async ms_ign ms_any ms_nmm ms_e ms_down ev0 es ek].
      cbn [remove_key List.filter mem_key existsb]. rewrite Hx. cbn [kstate_eqb orb andb negb].
      rewrite !andb_false_r. cbn [andb]. fold (ev0 a Down). rewrite unif_event_device by assumption. rewrite Hx.
      assert (Ha' := device_key_real _ Ha). destruct Ha' as (_ & Hany & Ht & _).
      apply N.eqb_neq in Hany, Ht. cbn [map In] in Hn.
      destruct (N.eqb_spec (ek x) a) as [E|E]; cbn [andb].
      + cbn [unif_state norm_state kstate_eqb tl_if tl]. cbn [andb List.filter].
        assert (Hna : ek e <> a) by (intros E'; apply Hn; left; congruence).
        (* the release is awaited *)
        assert (Hs : forall se m b, mem_key (ek se) (ms_not m) = false ->
           match_step (ev0 a UpAsync) se b m =
           MGo true false (MS (ms_async m ++ [ev0 a UpAsync]) (ms_not m) (ms_ign m) (ms_any m) (ms_nmm m) (S (ms_e m)) (ms_down m))).
        { intros se m b Hm. unfold match_step. cbn [ev0 es ek ms_not ms_async ms_ign ms_any ms_nmm ms_e ms_down].
          rewrite Hm, andb_false_r. reflexivity. }
        change (Ev a UpAsync 0) with (ev0 a UpAsync). rewrite Hs by reflexivity.
        cbn [tl_if tl ms_not ms_async ms_ign ms_any ms_nmm ms_e ms_down app].
        destruct (l ++ [e]) as [|y r] eqn:El; [destruct l; discriminate|]. rewrite <- El.
        rewrite match_rest; auto; [|split; auto|lia].
        unfold event_eqb. cbn [ev0 ek]. apply N.eqb_neq in Hna. rewrite Hna. reflexivity.
      + rewrite Ht. cbn [andb find_index kstate_eqb orb tl_if tl]. rewrite orb_false_r.
        apply (IH (S fuel) d); auto; [split; auto|lia]. }
  intros Hu Hk He Hn. unfold ms_init. apply G; auto. cbn [simple length]. rewrite app_length. cbn. lia.
Qed.

(** * Which mapping applies *)

Fixpoint assoc (t : list (key * key)) (k : key) : option key :=
  match t with
  | [] => None
  | (a, b) :: r => if a =? k then Some b else assoc r k
  end.

Lemma substitute_assoc : forall t k, substitute t k = match assoc t k with Some b => b | None => k end.
Proof. induction t as [|[a b] t IH]; intros k; cbn; [reflexivity|]. destruct (a =? k); auto. Qed.

Lemma assoc_app : forall t u k, assoc (t ++ u) k = match assoc t k with Some b => Some b | None => assoc u k end.
Proof. induction t as [|[a b] t IH]; intros u k; cbn; [reflexivity|]. destruct (a =? k); auto. Qed.

Lemma assoc_In : forall t k b, assoc t k = Some b -> In (k, b) t.
Proof.
  induction t as [|[a b] t IH]; intros k b' H; [discriminate|]. cbn in H.
  destruct (N.eqb_spec a k); [injection H as ->; subst; left; reflexivity|right; auto].
Qed.

Lemma set_any_any : forall a b s, set_any a (set_any b s) = set_any a s.
Proof. destruct s; reflexivity. Qed.
Lemma set_any_id : forall s, set_any (s_any s) s = s.
Proof. destruct s; reflexivity. Qed.

Section Table.
Variable cs : list context.
Variable il : list nat.
Variable ts : list (list (key * key)).
Hypothesis Htab : tables cs il ts.
Let tbl := concat ts.
Hypothesis Hkeys : Forall (fun ab => is_device_key (fst ab) = true /\ is_device_key (snd ab) = true) tbl.

(** The key which is mapped by the event. *)
Definition mapped (t : list (key * key)) (e : event) : option key :=
  match es e with Down => assoc t (ek e) | _ => None end.

Lemma match_table : forall c t inputs ci l e dev u s,
  Forall2 (maps_key c) t inputs ->
  Forall (fun ab => is_device_key (fst ab) = true) t ->
  used l -> Forall (fun x => is_device_key (ek x) = true) l -> key_event e -> ~ In (ek e) (map ek l) ->
  exists any, match mapped t e with
  | Some b => exists r, match_inputs cs true (l ++ [e]) dev u ci c inputs s =
                        (set_any any s, Some (RMatch r [ev0 b Down] (simple (ek e)) ci))
  | None => match_inputs cs true (l ++ [e]) dev u ci c inputs s = (set_any any s, None)
  end.
Proof.
  intros c t inputs ci l e dev u s HF. revert s. induction HF as [|[a b] i t inputs [H1 [H2 H3]] HF IH]; intros s Ht Hu Hk He Hn.
  - exists (s_any s). unfold mapped. cbn [assoc]. rewrite set_any_id.
    destruct (es e); reflexivity.
  - cbn [fst snd] in *. inversion_clear Ht as [|? ? Ha Ht']. cbn [fst] in Ha.
    cbn [match_inputs]. rewrite H1. cbn [is_nmm_mapping ev0 es kstate_eqb andb].
    change ([ev0 a Down; ev0 a UpAsync]) with (simple a).
    change [Ev a Down 0; Ev a UpAsync 0] with (simple a).
    rewrite match_simple by assumption. cbn [simple ub_unless].
    destruct (event_eqb (ev0 (ek e) (es e)) (ev0 a Down)) eqn:E.
    + unfold event_eqb in E. cbn [ev0 ek es ev] in E. rewrite N.eqb_refl, andb_true_r in E.
      apply andb_prop in E. destruct E as [E1 E2]. apply N.eqb_eq in E1.
      assert (Es : es e = Down) by (destruct (es e); try discriminate; reflexivity).
      unfold mapped. rewrite Es. cbn [assoc]. rewrite E1, N.eqb_refl. exists [].
      unfold find_output. destruct (Z.leb_spec 0 (in_out i)); [|lia]. rewrite H3. exists (ODirect ci (Z.to_nat (in_out i))). reflexivity.
    + destruct (IH (set_any [] s) Ht' Hu Hk He Hn) as [any IH']. exists any.
      assert (Em : mapped ((a, b) :: t) e = mapped t e).
      { unfold mapped. destruct (es e) eqn:Es; try reflexivity. cbn [assoc].
        unfold event_eqb in E. cbn [ev0 ek es ev] in E. cbn [kstate_eqb] in E. rewrite N.eqb_refl, !andb_true_r in E.
        rewrite N.eqb_sym, E. reflexivity. }
      rewrite Em. rewrite set_any_any in IH'. exact IH'.
Qed.

Lemma match_tables : forall l e dev u s,
  (-1 <= dev < 64)%Z ->
  used l -> Forall (fun x => is_device_key (ek x) = true) l -> key_event e -> ~ In (ek e) (map ek l) ->
  s_active s = il ->
  exists any, match mapped tbl e with
  | Some b => exists r ci, match_input cs true (l ++ [e]) dev u s =
                        (set_any any s, RMatch r [ev0 b Down] (simple (ek e)) ci)
  | None => match_input cs true (l ++ [e]) dev u s = (set_any any s, RNo)
  end.
Proof.
  intros l e dev u s Hd Hu Hk He Hn Ha. unfold match_input. rewrite Ha.
  assert (Hv : valid_device dev = true) by (unfold valid_device; apply andb_true_intro; split; [apply Z.leb_le|apply Z.ltb_lt]; lia).
  rewrite Hv. cbn [ub_unless]. clear Ha. unfold tbl in *. clear tbl. destruct Htab as [_ HF]. clear Htab.
  revert s. induction HF as [|i t il' ts' [c [Hc Hs]] HF IH]; intros s.
  - exists (s_any s). unfold mapped. cbn [concat assoc]. rewrite set_any_id. destruct (es e); reflexivity.
  - cbn [match_contexts]. rewrite Hc. destruct Hs as (H1 & H2 & H3 & H4 & H5 & H6 & H7).
    assert (Hdm : device_matches_filter c dev = true).
    { unfold device_matches_filter. rewrite H4. destruct (dev =? any_device)%Z; [reflexivity|].
      unfold no_device. destruct (Z.eqb_spec dev (-1)); [reflexivity|]. change all_device_bits with (N.ones 64).
      apply N.ones_spec_low. lia. }
    rewrite Hdm. cbn [concat] in *. apply Forall_app in Hkeys. destruct Hkeys as [Hk1 Hk2].
    assert (Ht : Forall (fun ab : key * key => is_device_key (fst ab) = true) t) by (eapply Forall_impl; [|exact Hk1]; cbn; intuition).
    destruct (match_table c t (cx_inputs c) i l e dev u s H1 Ht Hu Hk He Hn) as [any Hm].
    assert (Em : mapped (t ++ concat ts') e = match mapped t e with Some b => Some b | None => mapped (concat ts') e end).
    { unfold mapped. destruct (es e); try reflexivity. apply assoc_app. }
    rewrite Em. destruct (mapped t e) as [b|].
    + destruct Hm as [r Hm]. exists any, r, i. rewrite Hm. reflexivity.
    + rewrite Hm. destruct (IH Hk2 (set_any any s)) as [any' IH']. exists any'. rewrite set_any_any in IH'. exact IH'.
Qed.

Lemma tables_eval : forall sq, eval_active cs sq il [] = Some il.
Proof.
  intros sq. destruct Htab as [Hi HF]. clear Htab Hkeys. clear tbl.
  assert (G : forall acc, StronglySorted lt (acc ++ il) -> eval_active cs sq il acc = Some (acc ++ il)).
  { clear Hi. revert ts HF. induction il as [|i l IH]; intros ts0 HF acc Hs.
    - rewrite app_nil_r. reflexivity.
    - inversion HF as [|? t ? ts' [c [Hc Ht]] HF']; subst. cbn [eval_active]. rewrite Hc.
      destruct Ht as (H1 & H2 & H3 & H4 & H5 & H6 & H7).
      unfold match_modifier_filter, ctx_has_device_filter. rewrite H5, H6, H2, H3. cbn [forallb xorb negb orb andb].
      assert (Hf : fallthrough_context cs i = Some i).
      { unfold fallthrough_context. clear -Hc H7.
        assert (G : forall l i n, nth_error l i = Some c -> fallthrough_from (skipn i l) n = Some n).
        { clear -H7. induction l as [|x l IH]; intros [|i] n H; try discriminate.
          - injection H as ->. cbn. rewrite H7. reflexivity.
          - cbn. apply IH. exact H. }
        apply G. exact Hc. }
      rewrite Hf.
      assert (Hb : (match back acc with Some b => if Nat.eqb b i then acc else acc ++ [i] | None => acc ++ [i] end) = acc ++ [i]).
      { unfold back. destruct (rev acc) as [|b r] eqn:E; [reflexivity|]. cbn [nth_error].
        destruct (Nat.eqb_spec b i) as [->|]; [|reflexivity]. exfalso.
        assert (E' : acc = rev r ++ [i]) by (rewrite <- (rev_involutive acc), E; reflexivity).
        rewrite E', <- app_assoc in Hs. clear -Hs. induction (rev r) as [|y ys IH].
        - cbn in Hs. inversion_clear Hs. inversion_clear H0. lia.
        - cbn in Hs. inversion_clear Hs. auto. }
      rewrite Hb. replace (acc ++ i :: l) with ((acc ++ [i]) ++ l) by (rewrite <- app_assoc; reflexivity).
      apply (IH ts' HF'). rewrite <- app_assoc. exact Hs. }
  apply (G []). exact Hi.
Qed.

Lemma toggled_same : forall act l, toggled act l l = [].
Proof.
  intros act. induction l as [|x l IH]; [reflexivity|]. cbn [toggled]. rewrite Nat.ltb_irrefl. exact IH.
Qed.

(** * One event *)

Inductive sh (sq : sequence) (p : Z) (d : list out_down) (buf : sequence) : state -> Prop :=
| Sh : forall x r h any ub oof, sh sq p d buf (St il il x sq false p r h [] d None buf false any ub oof).

Lemma sh_update_active : forall sq p d buf s, sh sq p d buf s -> update_active_contexts cs s = s.
Proof.
  intros sq p d buf s [x r h any ub oof]. unfold update_active_contexts. cbn [s_seq s_client s_active].
  rewrite tables_eval. cbn zeta. rewrite !toggled_same. reflexivity.
Qed.

Lemma sh_clean_up : forall fuel sq p d buf s, sh sq p d buf s -> sh sq p d buf (clean_up_history cs fuel s).
Proof.
  induction fuel as [|fuel IH]; intros sq p d buf s [x r h any ub oof]; cbn [clean_up_history s_hist];
    (destruct h as [|e h]; [constructor|]); [constructor|].
  destruct (negb _); [constructor|]. destruct (history_might_match _ _); [constructor|].
  destruct (remove_first_ev _ _); [|constructor]. apply IH. constructor.
Qed.

(** The entries of m_output_down, all pressed regularly. *)
Definition regular (o : out_down) : Prop := od_temp o = false /\ od_suppressed o = false.

Lemma reapply_regular : forall k d buf rea, Forall regular d -> reapply_loop k d buf rea = (d, buf, rea, false).
Proof.
  induction d as [|o d IH]; intros buf rea H; [reflexivity|]. inversion_clear H as [|? ? [H1 H2] H'].
  cbn [reapply_loop]. rewrite H1. cbn [andb]. rewrite IH by assumption. reflexivity.
Qed.

Definition press (b : key) (t : trigger) (ci : option nat) (d : list out_down) : list out_down :=
  match find_index (fun o => od_key o =? b) d with
  | None => d ++ [OD b t false false false ci]
  | Some i => update_at i (fun o => OD (od_key o) (od_trigger o) (od_suppressed o) false true (od_ctx o)) d
  end.

Lemma sh_press : forall sq p d buf s e t ci, sh sq p d buf s -> es e = Down -> ek e <> k_timeout -> Forall regular d ->
  sh sq p (press (ek e) t ci d) (buf ++ [e]) (update_output e t ci s).
Proof.
  intros sq p d buf s e t ci [x r h any ub oof] He Ht Hd. unfold update_output. rewrite He.
  cbn [s_down s_buf s_reapplied]. rewrite reapply_regular by assumption. apply N.eqb_neq in Ht. rewrite Ht. unfold press.
  cbn. destruct (find_index _ d); constructor.
Qed.

Lemma sh_release : forall sq p d buf s k, sh sq p d buf s -> k <> k_ContextActive ->
  sh sq p (List.filter (fun o => negb (get_trigger_key (od_trigger o) =? k)) d)
    (buf ++ map (fun o => ev0 (od_key o) Up)
       (List.filter (fun o => negb (od_temp o)) (rev (List.filter (fun o => get_trigger_key (od_trigger o) =? k) d))))
    (release_triggered k None s).
Proof.
  intros sq p d buf s k [x r h any ub oof] Hk. apply N.eqb_neq in Hk. unfold release_triggered.
  cbn [s_timeout set_down set_buf s_down s_buf].
  assert (E1 : List.filter (keep_triggered k None) d = List.filter (fun o => negb (get_trigger_key (od_trigger o) =? k)) d).
  { apply filter_ext. intros o. unfold keep_triggered. rewrite Hk. destruct (_ =? k); reflexivity. }
  assert (E2 : List.filter (fun o => negb (keep_triggered k None o)) d = List.filter (fun o => get_trigger_key (od_trigger o) =? k) d).
  { apply filter_ext. intros o. unfold keep_triggered. rewrite Hk. destruct (_ =? k); reflexivity. }
  rewrite E1, E2. constructor.
Qed.

Lemma unsuppress_regular : forall sq p d buf s, sh sq p d buf s -> Forall regular d -> unsuppress s = s.
Proof.
  intros sq p d buf s [x r h any ub oof] Hd. unfold unsuppress. cbn [s_down].
  replace (map _ d) with d; [reflexivity|]. symmetry. induction Hd as [|o d [H1 H2] Hd IH]; [reflexivity|].
  cbn. rewrite IH. f_equal. destruct o; cbn in *. subst. reflexivity.
Qed.

Lemma used_optional : forall l, used l -> has_non_optional l = false.
Proof. induction 1 as [|x l H Hl IH]; [reflexivity|]. cbn. unfold is_non_optional. rewrite H. exact IH. Qed.

Lemma has_key_refl : forall e, has_key (ek e) e = true.
Proof. intros e. apply N.eqb_refl. Qed.

Lemma physically_last : forall l e s, s_seq s = l ++ [e] -> es e = Down -> is_physically_pressed s (ek e) = true.
Proof.
  intros l e s Hs He. unfold is_physically_pressed, rfind_key. rewrite Hs.
  assert (E : rfind_index (has_key (ek e)) (l ++ [e]) = Some (length l)).
  { clear. induction l as [|x l IH]; cbn; [rewrite has_key_refl; reflexivity|]. rewrite IH. reflexivity. }
  rewrite E, nth_error_app2, Nat.sub_diag by lia. cbn. rewrite He. reflexivity.
Qed.

Lemma drop_up_used : forall l, used l -> drop_up_matched l = l.
Proof. intros [|x l] H; [reflexivity|]. inversion_clear H as [|? ? Hx]. cbn. rewrite Hx. reflexivity. Qed.

Lemma finish_new : forall l e, used l -> es e = Down ->
  finish_loop (length (l ++ [e])) (l ++ [e]) = l ++ [set_es DownMatched e].
Proof.
  intros l e Hu He. rewrite app_length, Nat.add_comm. cbn [length Nat.add].
  assert (G : forall n, (length l <= n)%nat -> finish_loop (S n) (l ++ [e]) = l ++ [set_es DownMatched e]).
  { induction Hu as [|x l Hx Hl IH]; intros n Hn.
    - cbn [app finish_loop]. rewrite He. unfold contains_ev. cbn [existsb].
      assert (E : event_eqb (ev0 (ek e) Up) e = false).
      { unfold event_eqb. cbn. rewrite He. cbn. rewrite andb_false_r. reflexivity. }
      rewrite E. destruct n; reflexivity.
    - cbn [length] in Hn. destruct n as [|n]; [lia|].
      change ((x :: l) ++ [e]) with (x :: (l ++ [e])). change (finish_loop (S (S n)) (x :: l ++ [e])) with
        (match es x with
         | Down | DownMatched => if contains_ev (x :: l ++ [e]) (ev0 (ek x) Up) then finish_loop (S n) (l ++ [e])
                                 else set_es DownMatched x :: finish_loop (S n) (l ++ [e])
         | _ => if ek x =? k_timeout then set_es UpMatched x :: finish_loop (S n) (l ++ [e]) else finish_loop (S n) (l ++ [e])
         end).
      rewrite Hx.
      assert (E : contains_ev (x :: l ++ [e]) (ev0 (ek x) Up) = false).
      { unfold contains_ev. apply not_true_iff_false. rewrite existsb_exists. intros (y & Hy & Ey).
        unfold event_eqb in Ey. apply andb_prop in Ey. destruct Ey as [Ey _]. apply andb_prop in Ey. destruct Ey as [_ Ey].
        cbn in Ey. assert (es y = DownMatched \/ es y = Down).
        { destruct Hy as [<-|Hy]; [auto|]. apply in_app_or in Hy. destruct Hy as [Hy|[<-|[]]]; [|auto].
          unfold used in Hl. rewrite Forall_forall in Hl. auto. }
        destruct H as [H|H]; rewrite H in Ey; discriminate. }
      rewrite E. rewrite IH by lia. cbn [app]. f_equal. destruct x; cbn in *. subst. reflexivity. }
  apply G. lia.
Qed.

Lemma no_ups : forall l k v, Forall (fun x => es x = Up -> ek x <> k) l -> contains_ev l (Ev k Up v) = false.
Proof.
  intros l k v H. unfold contains_ev. apply not_true_iff_false. rewrite existsb_exists. intros (y & Hy & Ey).
  rewrite Forall_forall in H. specialize (H y Hy).
  unfold event_eqb in Ey. apply andb_prop in Ey. destruct Ey as [Ey _]. apply andb_prop in Ey. destruct Ey as [E1 E2].
  cbn in E1, E2. apply N.eqb_eq in E1. destruct (es y); try discriminate. apply H; auto.
Qed.

Lemma forward_skip : forall l pre e s, used l -> ~ In (ek e) (map ek l) ->
  forward_loop pre (l ++ [e]) s = forward_loop (pre ++ l) [e] s.
Proof.
  induction l as [|x l IH]; intros pre e s Hu Hn; [rewrite app_nil_r; reflexivity|].
  inversion_clear Hu as [|? ? Hx Hu']. cbn [app]. change (forward_loop pre (x :: l ++ [e]) s) with
   (match es x with
      | Down | DownMatched =>
          if contains_ev (x :: l ++ [e]) (ev0 (ek x) Up) then
            let s := update_output x (TKey (ek x)) None s in
            set_seq (pre ++ l ++ [e]) s
          else
            match es x with
            | Down =>
                let s := match s_timeout s with
                         | Some c => match ct_output c with
                                     | Some _ => s
                                     | None => update_output x (TKey (ek x)) None s
                                     end
                         | None => update_output x (TKey (ek x)) None s
                         end in
                set_seq (pre ++ set_es DownMatched x :: l ++ [e]) s
            | _ => forward_loop (pre ++ [x]) (l ++ [e]) s
            end
      | _ =>
          let s := release_triggered (ek x) None s in
          set_seq (pre ++ l ++ [e]) s
      end). rewrite Hx.
  unfold ev0 at 1. rewrite no_ups.
  - rewrite IH; [|exact Hu'|intros H; apply Hn; right; exact H]. rewrite <- app_assoc. reflexivity.
  - constructor; [rewrite Hx; discriminate|]. apply Forall_app. split.
    + eapply Forall_impl; [|exact Hu']. cbn. intros y Hy E. congruence.
    + constructor; [|constructor]. intros _ E. apply Hn. left. congruence.
Qed.

Definition devices (l : sequence) : Prop := Forall (fun x => is_device_key (ek x) = true) l.

Lemma sh_any : forall sq p d buf s any, sh sq p d buf s -> sh sq p d buf (set_any any s).
Proof. intros sq p d buf s any [x r h any' ub oof]. constructor. Qed.

Lemma loop_press : forall l e dev p d buf s fuel, sh (l ++ [e]) p d buf s -> (0 < fuel)%nat ->
  (-1 <= dev < 64)%Z -> used l -> devices l -> is_device_key (ek e) = true -> es e = Down ->
  ~ In (ek e) (map ek l) -> Forall regular d ->
  exists e' t ci, ek e' = substitute tbl (ek e) /\ es e' = Down /\ get_trigger_key t = ek e /\
    sh (l ++ [set_es DownMatched e]) p (press (ek e') t ci d) (buf ++ [e']) (apply_loop cs fuel e dev s).
Proof.
  intros l e dev p d buf s fuel Hs Hf Hd Hu Hk He Hes Hn Hr.
  destruct fuel as [|fuel]; [lia|]. cbn [apply_loop].
  assert (Hq : s_seq s = l ++ [e]) by (destruct Hs; reflexivity).
  assert (Hno : has_non_optional (s_seq s) = true).
  { rewrite Hq. unfold has_non_optional. rewrite existsb_app. cbn. unfold is_non_optional at 2. rewrite Hes. apply orb_true_r. }
  rewrite Hno. unfold apply_round. rewrite Hq.
  assert (Hke : key_event e) by (split; auto).
  assert (Ha : s_active s = il) by (destruct Hs; reflexivity).
  destruct (match_tables l e dev (kstate_eqb (es e) Up && negb (ek e =? k_timeout)) s Hd Hu Hk Hke Hn Ha) as [any Hm].
  destruct (device_key_real _ He) as (_ & Hany & Ht & Hv & _).
  assert (Hopt : has_non_optional (l ++ [set_es DownMatched e]) = false).
  { apply used_optional. apply Forall_app. split; [exact Hu|]. constructor; [reflexivity|constructor]. }
  unfold mapped in Hm. rewrite Hes in Hm. rewrite substitute_assoc.
  assert (Hs' := sh_any _ _ _ _ _ any Hs).
  rewrite Hv. cbn [andb]. rewrite Hes in *.
  destruct (assoc tbl (ek e)) as [b|] eqn:Eb.
  - destruct Hm as (r & ci & Hm). rewrite Hm. cbn [negb andb].
    assert (Hb : is_device_key b = true).
    { apply assoc_In in Eb. rewrite Forall_forall in Hkeys. apply Hkeys in Eb. apply Eb. }
    destruct (device_key_real _ Hb) as (_ & Hbany & Hbt & _ & _).
    set (s1 := set_any any s) in *. clearbody s1.
    assert (E1 : timeout_after_match e false (RMatch r [ev0 b Down] (simple (ek e)) ci) s1 = (s1, RMatch r [ev0 b Down] (simple (ek e)) ci)).
    { destruct Hs'. reflexivity. }
    rewrite E1. assert (E2 : not_timeout_after_match (RMatch r [ev0 b Down] (simple (ek e)) ci) s1 = s1) by (destruct Hs'; reflexivity).
    rewrite E2. cbn zeta.
    assert (Hq1 : s_seq s1 = l ++ [e]) by (destruct Hs'; reflexivity).
    assert (E3 : select_trigger e (simple (ek e)) [ev0 b Down] s1 = TSeq (simple (ek e))).
    { unfold select_trigger. change (get_trigger_key (TSeq (simple (ek e)))) with (ek e).
      apply N.eqb_neq in Hany, Ht. rewrite Hany, Ht. cbn [orb].
      change (get_trigger_key (TSeq (simple (ek e)))) with (ek e). rewrite Ht.
      change (get_trigger_key (TSeq (simple (ek e)))) with (ek e).
      rewrite (physically_last l e s1 Hq1 Hes). reflexivity. }
    rewrite E3. cbn [apply_output ev0 ek es]. apply N.eqb_neq in Hbany. rewrite Hbany.
    exists (ev0 b Down), (TSeq (simple (ek e))), (Some ci).
    split; [reflexivity|]. split; [reflexivity|]. split; [reflexivity|].
    pose proof (sh_press _ _ _ _ _ (ev0 b Down) (TSeq (simple (ek e))) (Some ci) Hs' eq_refl Hbt Hr) as Hp.
    cbn [ev0 ek] in Hp. fold (ev0 b Down) in Hp. change (Ev b Down 0) with (ev0 b Down).
    set (s2 := update_output (ev0 b Down) (TSeq (simple (ek e))) (Some ci) s1) in *. clearbody s2. clear - Hp Hopt Hu Hes Hq.
    assert (Hf2 : sh (l ++ [set_es DownMatched e]) p (press b (TSeq (simple (ek e))) (Some ci) d) (buf ++ [ev0 b Down])
                     (set_might false (finish_sequence (length (l ++ [e])) s2))).
    { destruct Hp. unfold finish_sequence. cbn [s_seq]. rewrite finish_new by assumption. constructor. }
    set (s3 := set_might false _) in *. clearbody s3.
    assert (Hq3 : s_seq s3 = l ++ [set_es DownMatched e]) by (destruct Hf2; reflexivity).
    destruct fuel; cbn [apply_loop]; rewrite Hq3, Hopt; exact Hf2.
  - rewrite Hm. cbn [negb andb].
    set (s1 := set_any any s) in *. clearbody s1.
    assert (Hm1 : s_might s1 = false) by (destruct Hs'; reflexivity). rewrite Hm1.
    assert (E1 : timeout_after_match e false RNo s1 = (s1, RNo)) by (destruct Hs'; reflexivity).
    rewrite E1. assert (E2 : not_timeout_after_match RNo s1 = s1) by (destruct Hs'; reflexivity).
    rewrite E2. cbn zeta.
    exists e, (TKey (ek e)), None. split; [reflexivity|]. split; [exact Hes|]. split; [reflexivity|].
    pose proof (sh_press _ _ _ _ _ e (TKey (ek e)) None Hs' Hes Ht Hr) as Hp.
    assert (Hq1 : s_seq s1 = l ++ [e]) by (destruct Hs'; reflexivity).
    assert (Ht1 : s_timeout s1 = None) by (destruct Hs'; reflexivity).
    assert (Efw : forward_from_sequence s1 = set_seq (l ++ [set_es DownMatched e]) (update_output e (TKey (ek e)) None s1)).
    { unfold forward_from_sequence. rewrite Hq1, forward_skip by assumption. cbn [app forward_loop]. rewrite Hes, Ht1.
      unfold ev0 at 1. rewrite no_ups; [reflexivity|]. constructor; [rewrite Hes; discriminate|constructor]. }
    rewrite Efw. set (s2 := update_output e (TKey (ek e)) None s1) in *. clearbody s2.
    assert (Hf2 : sh (l ++ [set_es DownMatched e]) p (press (ek e) (TKey (ek e)) None d) (buf ++ [e])
                     (set_seq (l ++ [set_es DownMatched e]) s2)) by (destruct Hp; constructor).
    set (s3 := set_seq _ s2) in *. clearbody s3.
    assert (Hq3 : s_seq s3 = l ++ [set_es DownMatched e]) by (destruct Hf2; reflexivity).
    assert (Hm3 : s_might s3 = false) by (destruct Hf2; reflexivity). rewrite Hm3. cbn [andb].
    destruct fuel; cbn [apply_loop]; rewrite Hq3, Hopt; exact Hf2.
Qed.

Definition kept (k : key) (d : list out_down) : list out_down :=
  List.filter (fun o => negb (get_trigger_key (od_trigger o) =? k)) d.
Definition freed (k : key) (d : list out_down) : sequence :=
  map (fun o => ev0 (od_key o) Up)
       (List.filter (fun o => negb (od_temp o)) (rev (List.filter (fun o => get_trigger_key (od_trigger o) =? k) d))).

Lemma loop_release : forall l e dev p d buf s fuel, sh (l ++ [e]) p d buf s -> (0 < fuel)%nat ->
  (-1 <= dev < 64)%Z -> used l -> devices l -> is_device_key (ek e) = true -> es e = Up ->
  ~ In (ek e) (map ek l) ->
  sh l p (kept (ek e) d) (buf ++ freed (ek e) d) (apply_loop cs fuel e dev s).
Proof.
  intros l e dev p d buf s fuel Hs Hf Hd Hu Hk He Hes Hn.
  destruct fuel as [|fuel]; [lia|]. cbn [apply_loop].
  assert (Hq : s_seq s = l ++ [e]) by (destruct Hs; reflexivity).
  assert (Hno : has_non_optional (s_seq s) = true).
  { rewrite Hq. unfold has_non_optional. rewrite existsb_app. cbn. unfold is_non_optional at 2. rewrite Hes. apply orb_true_r. }
  rewrite Hno. unfold apply_round. rewrite Hq.
  assert (Hke : key_event e) by (split; auto).
  assert (Ha : s_active s = il) by (destruct Hs; reflexivity).
  destruct (match_tables l e dev (kstate_eqb (es e) Up && negb (ek e =? k_timeout)) s Hd Hu Hk Hke Hn Ha) as [any Hm].
  destruct (device_key_real _ He) as (_ & Hany & Ht & Hv & Hca).
  unfold mapped in Hm. rewrite Hes in *.
  assert (Hs' := sh_any _ _ _ _ _ any Hs).
  rewrite Hv. cbn [andb]. rewrite Hm. cbn [negb andb].
  set (s1 := set_any any s) in *. clearbody s1.
  assert (Hm1 : s_might s1 = false) by (destruct Hs'; reflexivity). rewrite Hm1.
  assert (E1 : timeout_after_match e false RNo s1 = (s1, RNo)) by (destruct Hs'; reflexivity).
  rewrite E1. assert (E2 : not_timeout_after_match RNo s1 = s1) by (destruct Hs'; reflexivity).
  rewrite E2. cbn zeta.
  pose proof (sh_release _ _ _ _ _ (ek e) Hs' Hca) as Hp. fold (kept (ek e) d) in Hp. fold (freed (ek e) d) in Hp.
  assert (Hq1 : s_seq s1 = l ++ [e]) by (destruct Hs'; reflexivity).
  assert (Efw : forward_from_sequence s1 = set_seq l (release_triggered (ek e) None s1)).
  { unfold forward_from_sequence. rewrite Hq1, forward_skip by assumption. cbn [app forward_loop]. rewrite Hes, app_nil_r. reflexivity. }
  rewrite Efw. set (s2 := release_triggered (ek e) None s1) in *. clearbody s2.
  assert (Hf2 : sh l p (kept (ek e) d) (buf ++ freed (ek e) d) (set_seq l s2)) by (destruct Hp; constructor).
  set (s3 := set_seq _ s2) in *. clearbody s3.
  assert (Hq3 : s_seq s3 = l) by (destruct Hf2; reflexivity).
  assert (Hm3 : s_might s3 = false) by (destruct Hf2; reflexivity). rewrite Hm3. cbn [andb].
  destruct fuel; cbn [apply_loop]; rewrite Hq3, used_optional by assumption; exact Hf2.
Qed.

Definition removed (k : key) (l : sequence) : sequence := List.filter (fun x => negb (ek x =? k)) l.

Lemma removed_none : forall k l, ~ In k (map ek l) -> removed k l = l.
Proof.
  induction l as [|x l IH]; intros H; [reflexivity|]. cbn in *. destruct (N.eqb_spec (ek x) k); [exfalso; auto|].
  cbn [negb]. f_equal. apply IH. auto.
Qed.

Lemma find_key_removed : forall k l i r, NoDup (map ek l) -> In k (map ek l) -> find_key (l ++ r) k = Some i ->
  remove_at i (l ++ r) = removed k l ++ r /\ (exists x, nth_error (l ++ r) i = Some x /\ In x l).
Proof.
  unfold find_key. induction l as [|x l IH]; intros i r Hn Hk H; [destruct Hk|].
  cbn [map] in Hn, Hk. inversion_clear Hn as [|? ? Hx Hn']. cbn [app find_index] in H. unfold has_key at 1 in H.
  unfold removed. cbn [List.filter]. destruct (N.eqb_spec (ek x) k) as [E|E].
  - injection H as <-. cbn [negb app remove_at nth_error]. split; [|exists x; split; [reflexivity|left; reflexivity]].
    fold (removed k l). rewrite removed_none; [reflexivity|]. rewrite <- E. exact Hx.
  - destruct (find_index (has_key k) (l ++ r)) as [j|] eqn:Ej; [|discriminate]. injection H as <-.
    destruct (IH j r Hn') as [H1 (y & H2 & H3)]; [destruct Hk; [contradiction|assumption]|exact Ej|].
    cbn [negb app remove_at nth_error]. fold (removed k l). rewrite H1. split; [reflexivity|]. exists y. split; [exact H2|right; exact H3].
Qed.

Lemma find_key_some : forall k l, In k (map ek l) -> exists i, find_key l k = Some i.
Proof.
  unfold find_key. induction l as [|x l IH]; intros H; [destruct H|]. cbn [find_index]. unfold has_key at 1.
  destruct (N.eqb_spec (ek x) k); [eexists; reflexivity|]. destruct H as [H|H]; [contradiction|].
  destruct (IH H) as [i ->]. eexists. reflexivity.
Qed.

Lemma rfind_key_removed : forall k l, NoDup (map ek l) -> In k (map ek l) ->
  exists i x, rfind_key l k = Some i /\ remove_at i l = removed k l /\ nth_error l i = Some x /\ In x l.
Proof.
  unfold rfind_key. induction l as [|x l IH]; intros Hn Hk; [destruct Hk|].
  cbn [map] in Hn, Hk. inversion_clear Hn as [|? ? Hx Hn']. cbn [rfind_index].
  unfold removed. cbn [List.filter]. destruct (N.eqb_spec (ek x) k) as [E|E].
  - assert (En : rfind_index (has_key k) l = None).
    { rewrite E in Hx. clear -Hx. induction l as [|y l IH]; [reflexivity|]. cbn in *. rewrite IH by tauto.
      unfold has_key. destruct (N.eqb_spec (ek y) k); [exfalso; tauto|reflexivity]. }
    rewrite En. unfold has_key. rewrite E, N.eqb_refl. exists 0%nat, x. cbn [negb remove_at nth_error].
    split; [reflexivity|]. split; [|split; [reflexivity|left; reflexivity]].
    symmetry. apply removed_none. rewrite <- E. exact Hx.
  - destruct (IH Hn') as (i & y & H1 & H2 & H3 & H4); [destruct Hk; [contradiction|assumption]|].
    rewrite H1. exists (S i), y. cbn [negb remove_at nth_error]. fold (removed k l). rewrite H2.
    split; [reflexivity|]. split; [reflexivity|]. split; [exact H3|right; exact H4].
Qed.

Lemma rfind_key_none : forall k l, ~ In k (map ek l) -> rfind_key l k = None.
Proof.
  unfold rfind_key. induction l as [|y l IH]; intros Hx; [reflexivity|]. cbn in *. rewrite IH by tauto.
  unfold has_key. destruct (N.eqb_spec (ek y) k); [exfalso; tauto|reflexivity].
Qed.

Lemma removed_In : forall k l x, In x (map ek (removed k l)) <-> In x (map ek l) /\ x <> k.
Proof.
  intros k l x. unfold removed. rewrite !in_map_iff. split.
  - intros (y & <- & Hy). apply filter_In in Hy. destruct Hy as [Hy E]. apply negb_true_iff, N.eqb_neq in E.
    split; [exists y; auto|exact E].
  - intros ((y & <- & Hy) & E). exists y. split; [reflexivity|]. apply filter_In. split; [exact Hy|].
    apply negb_true_iff, N.eqb_neq. exact E.
Qed.

Lemma removed_NoDup : forall k l, NoDup (map ek l) -> NoDup (map ek (removed k l)).
Proof.
  induction l as [|x l IH]; intros H; [constructor|]. cbn in H. inversion_clear H.
  unfold removed. cbn. destruct (ek x =? k); cbn; [apply IH; assumption|].
  constructor; [|apply IH; assumption]. intros Hi. fold (removed k l) in Hi. apply removed_In in Hi. tauto.
Qed.

Lemma sh_history : forall sq p d buf e s, sh sq p d buf s -> sh sq p d buf (add_to_history cs e s).
Proof.
  intros sq p d buf e s [x r h any ub oof]. unfold add_to_history. cbn [s_hist].
  destruct (_ && _); [|constructor].
  destruct (es e); (destruct (match rfind_key h (ek e) with Some _ => _ | None => _ end)); constructor.
Qed.

Lemma sh_finish : forall sq p d buf e s, sh sq p d buf s -> used sq ->
  es e = Down \/ (ek e <> k_ContextActive /\ kept (ek e) d = d) ->
  sh sq p d buf (finish_input cs e s).
Proof.
  intros sq p d buf e s Hs Hu He. unfold finish_input.
  assert (H1 : sh sq p d buf (if kstate_eqb (es e) Up then release_triggered (ek e) None s else s)).
  { destruct He as [He|[He1 He2]]; [rewrite He; exact Hs|]. destruct (kstate_eqb (es e) Up); [|exact Hs].
    pose proof (sh_release _ _ _ _ _ (ek e) Hs He1) as Hp. fold (kept (ek e) d) in Hp. rewrite He2 in Hp.
    assert (E : List.filter (fun o => get_trigger_key (od_trigger o) =? ek e) d = []).
    { rewrite <- He2. unfold kept. clear. induction d as [|o d IH]; [reflexivity|]. cbn.
      destruct (get_trigger_key (od_trigger o) =? ek e) eqn:E; cbn; [exact IH|]. rewrite E. exact IH. }
    rewrite E in Hp. cbn in Hp. rewrite app_nil_r in Hp. exact Hp. }
  set (s1 := if kstate_eqb _ _ then _ else _) in *. clearbody s1. cbn zeta.
  rewrite (sh_update_active _ _ _ _ _ H1). apply sh_clean_up. destruct H1. cbn [s_seq]. rewrite drop_up_used by assumption.
  destruct sq; constructor.
Qed.

Lemma weight_pos : forall l e, es e = Down \/ es e = Up -> (0 < weight (l ++ [e]))%nat.
Proof.
  intros l e He. induction l as [|x l IH]; cbn.
  - unfold is_non_optional. destruct He as [He|He]; rewrite He; lia.
  - destruct (is_non_optional x); unfold weight in IH; lia.
Qed.

Lemma process_press : forall l e dev p d buf s, sh l p d buf s ->
  (-1 <= dev < 64)%Z -> used l -> devices l -> is_device_key (ek e) = true -> es e = Down ->
  ~ In (ek e) (map ek l) -> Forall regular d ->
  exists e' t ci, ek e' = substitute tbl (ek e) /\ es e' = Down /\ get_trigger_key t = ek e /\
    sh (l ++ [set_es DownMatched e]) p (press (ek e') t ci d) (buf ++ [e']) (process_input cs e dev s).
Proof.
  intros l e dev p d buf s Hs Hd Hu Hk He Hes Hn Hr. unfold process_input.
  assert (H1 : sh (l ++ [e]) p d buf (set_seq (s_seq s ++ [e]) s)) by (destruct Hs; constructor).
  set (s1 := set_seq _ s) in *. clearbody s1. cbn zeta.
  assert (H2 := sh_history _ _ _ _ e _ H1). set (s2 := add_to_history cs e s1) in *. clearbody s2.
  rewrite (sh_update_active _ _ _ _ _ H2).
  assert (E3 : prepare_up e s2 = s2) by (unfold prepare_up; rewrite Hes; reflexivity). rewrite E3.
  rewrite (unsuppress_regular _ _ _ _ _ H2 Hr).
  assert (Hq : s_seq s2 = l ++ [e]) by (destruct H2; reflexivity). rewrite Hq.
  destruct (loop_press l e dev p d buf s2 (weight (l ++ [e])) H2 (weight_pos l e (or_introl Hes)) Hd Hu Hk He Hes Hn Hr)
    as (e' & t & ci & G1 & G2 & G3 & G4).
  exists e', t, ci. split; [exact G1|]. split; [exact G2|]. split; [exact G3|].
  apply sh_finish; [exact G4| |left; exact Hes].
  apply Forall_app. split; [exact Hu|]. constructor; [reflexivity|constructor].
Qed.

Lemma kept_kept : forall k d, kept k (kept k d) = kept k d.
Proof.
  intros k d. unfold kept. induction d as [|o d IH]; [reflexivity|]. cbn.
  destruct (negb (get_trigger_key (od_trigger o) =? k)) eqn:E; cbn; [rewrite E, IH; reflexivity|exact IH].
Qed.

Lemma used_removed : forall k l, used l -> used (removed k l).
Proof. intros k l H. apply Forall_forall. intros x Hx. apply filter_In in Hx. unfold used in H. rewrite Forall_forall in H. apply H. apply Hx. Qed.
Lemma devices_removed : forall k l, devices l -> devices (removed k l).
Proof. intros k l H. apply Forall_forall. intros x Hx. apply filter_In in Hx. unfold devices in H. rewrite Forall_forall in H. apply H. apply Hx. Qed.

Lemma process_release : forall l e dev p d buf s, sh l p d buf s ->
  (-1 <= dev < 64)%Z -> used l -> devices l -> NoDup (map ek l) -> is_device_key (ek e) = true -> es e = Up -> Forall regular d ->
  sh (removed (ek e) l) p (kept (ek e) d) (buf ++ freed (ek e) d) (process_input cs e dev s).
Proof.
  intros l e dev p d buf s Hs Hd Hu Hk Hnd He Hes Hr. unfold process_input.
  assert (H1 : sh (l ++ [e]) p d buf (set_seq (s_seq s ++ [e]) s)) by (destruct Hs; constructor).
  set (s1 := set_seq _ s) in *. clearbody s1. cbn zeta.
  assert (H2 := sh_history _ _ _ _ e _ H1). set (s2 := add_to_history cs e s1) in *. clearbody s2.
  rewrite (sh_update_active _ _ _ _ _ H2).
  assert (H3 : sh (removed (ek e) l ++ [e]) p d buf (prepare_up e s2)).
  { unfold prepare_up. rewrite Hes. cbn [kstate_eqb].
    assert (Et : s_timeout s2 = None) by (destruct H2; reflexivity). rewrite Et.
    assert (Em : s_might s2 = false) by (destruct H2; reflexivity). rewrite Em.
    assert (Eq : s_seq s2 = l ++ [e]) by (destruct H2; reflexivity). rewrite Eq.
    destruct (in_dec N.eq_dec (ek e) (map ek l)) as [Hi|Hi].
    - destruct (find_key_some (ek e) (l ++ [e])) as [i Ei]; [rewrite map_app; apply in_or_app; left; exact Hi|].
      rewrite Ei. destruct (find_key_removed _ _ _ _ Hnd Hi Ei) as [E1 (x & E2 & E3)].
      rewrite E2. unfold used in Hu. rewrite Forall_forall in Hu. rewrite (Hu x E3). cbn [kstate_eqb]. rewrite E1.
      destruct H2; constructor.
    - rewrite removed_none by exact Hi.
      assert (Ei : find_key (l ++ [e]) (ek e) = Some (length l)).
      { unfold find_key. clear -Hi. induction l as [|x l IH]; cbn [app find_index length].
        - rewrite has_key_refl. reflexivity.
        - cbn in Hi. unfold has_key at 1. destruct (N.eqb_spec (ek x) (ek e)); [exfalso; tauto|]. rewrite IH by tauto. reflexivity. }
      rewrite Ei, nth_error_app2, Nat.sub_diag by lia. cbn [nth_error]. rewrite Hes. exact H2. }
  set (s3 := prepare_up e s2) in *. clearbody s3.
  rewrite (unsuppress_regular _ _ _ _ _ H3 Hr).
  assert (Hq : s_seq s3 = removed (ek e) l ++ [e]) by (destruct H3; reflexivity). rewrite Hq.
  assert (Hn : ~ In (ek e) (map ek (removed (ek e) l))) by (intros H; apply removed_In in H; tauto).
  pose proof (loop_release (removed (ek e) l) e dev p d buf s3 (weight (removed (ek e) l ++ [e])) H3
    (weight_pos _ e (or_intror Hes)) Hd (used_removed _ _ Hu) (devices_removed _ _ Hk) He Hes Hn) as H4.
  apply sh_finish; [exact H4|apply used_removed; exact Hu|right].
  split; [apply device_key_real; exact He|apply kept_kept].
Qed.

Lemma update_release : forall l e dev p d s, sh l p d [] s ->
  (-1 <= dev < 64)%Z -> used l -> devices l -> NoDup (map ek l) -> is_device_key (ek e) = true -> es e = Up -> Forall regular d ->
  sh (removed (ek e) l) p (kept (ek e) d) [] (fst (update cs e dev s)) /\ snd (update cs e dev s) = freed (ek e) d.
Proof.
  intros l e dev p d s Hs Hd Hu Hk Hnd He Hes Hr. unfold update, apply_input.
  assert (H1 : sh l p d [] (set_exit (advance_exit e (s_exit s)) s)) by (destruct Hs; constructor).
  set (s1 := set_exit _ s) in *. clearbody s1. cbn zeta.
  assert (E1 : continue_output_on_release e None s1 = (s1, true)) by (destruct H1; reflexivity). rewrite E1. cbn [negb].
  assert (E2 : suppress_not_timeout e s1 = (s1, true)) by (destruct H1; reflexivity). rewrite E2. cbn [negb].
  unfold merge_repeat. rewrite Hes.
  assert (H2 : sh l p d [] (if (dev =? s_rdev s1)%Z then set_rdev no_device s1 else s1)).
  { destruct (dev =? s_rdev s1)%Z; [destruct H1; constructor|exact H1]. }
  set (s2 := if (dev =? s_rdev s1)%Z then _ else _) in *. clearbody s2. cbn [negb].
  pose proof (process_release l e dev p d [] s2 H2 Hd Hu Hk Hnd He Hes Hr) as H3.
  set (s3 := process_input cs e dev s2) in *. clearbody s3. cbn [app] in H3. destruct H3. cbn. split; [constructor|reflexivity].
Qed.

Lemma update_press : forall l e dev p d s, sh l p d [] s ->
  (-1 <= dev < 64)%Z -> used l -> devices l -> NoDup (map ek l) -> is_device_key (ek e) = true -> es e = Down -> Forall regular d ->
  (In (ek e) (map ek l) -> dev = p \/ dev = no_device) ->
  exists e' t ci p', ek e' = substitute tbl (ek e) /\ es e' = Down /\ get_trigger_key t = ek e /\
    p' = (if in_dec N.eq_dec (ek e) (map ek l) then p else if (dev =? no_device)%Z then p else dev) /\
    sh (removed (ek e) l ++ [set_es DownMatched e]) p' (press (ek e') t ci d) [] (fst (update cs e dev s)) /\
    snd (update cs e dev s) = [e'].
Proof.
  intros l e dev p d s Hs Hd Hu Hk Hnd He Hes Hr Hrep. unfold update, apply_input.
  assert (H1 : sh l p d [] (set_exit (advance_exit e (s_exit s)) s)) by (destruct Hs; constructor).
  set (s1 := set_exit _ s) in *. clearbody s1. cbn zeta.
  assert (E1 : continue_output_on_release e None s1 = (s1, true)) by (destruct H1; reflexivity). rewrite E1. cbn [negb].
  assert (E2 : suppress_not_timeout e s1 = (s1, true)) by (destruct H1; reflexivity). rewrite E2. cbn [negb].
  set (p' := if in_dec N.eq_dec (ek e) (map ek l) then p else if (dev =? no_device)%Z then p else dev).
  assert (H2 : exists s2, merge_repeat e dev s1 = (s2, true) /\ sh (removed (ek e) l) p' d [] s2).
  { unfold merge_repeat. rewrite Hes.
    assert (Eq : s_seq s1 = l) by (destruct H1; reflexivity). rewrite Eq.
    assert (Em : s_might s1 = false) by (destruct H1; reflexivity). rewrite Em.
    unfold p'. destruct (in_dec N.eq_dec (ek e) (map ek l)) as [Hi|Hi].
    - destruct (rfind_key_removed _ _ Hnd Hi) as (i & x & F1 & F2 & F3 & F4). rewrite F1, F3.
      unfold used in Hu. rewrite Forall_forall in Hu. rewrite (Hu x F4). cbn [kstate_eqb negb].
      destruct (Z.eqb_spec dev no_device) as [En|En]; cbn [negb].
      + exists (set_seq (removed (ek e) l) s1). split; [destruct H1; cbn; rewrite F2; reflexivity|].
        destruct H1; constructor.
      + destruct (Hrep Hi) as [Ep|Ep]; [|contradiction].
        assert (Epd : s_pdev s1 = p) by (destruct H1; reflexivity). rewrite Epd, Ep, Z.eqb_refl.
        exists (set_seq (removed (ek e) l) (set_rdev p s1)).
        destruct H1. cbn. rewrite Z.eqb_refl, F2. cbn. split; [reflexivity|constructor].
    - rewrite rfind_key_none by exact Hi. rewrite removed_none by exact Hi.
      destruct (dev =? no_device)%Z; eexists; (split; [reflexivity|]); destruct H1; cbn; [constructor|].
      destruct (dev =? r)%Z; constructor. }
  destruct H2 as (s2 & Em & H2). rewrite Em. cbn [negb].
  assert (Hn : ~ In (ek e) (map ek (removed (ek e) l))) by (intros H; apply removed_In in H; tauto).
  destruct (process_press (removed (ek e) l) e dev p' d [] s2 H2 Hd (used_removed _ _ Hu) (devices_removed _ _ Hk) He Hes Hn Hr)
    as (e' & t & ci & G1 & G2 & G3 & G4).
  exists e', t, ci, p'. split; [exact G1|]. split; [exact G2|]. split; [exact G3|]. split; [reflexivity|].
  set (s3 := process_input cs e dev s2) in *. clearbody s3. cbn [app] in G4. destruct G4. cbn. split; [constructor|reflexivity].
Qed.

(** * Histories *)

Variable ks : list key.
Hypothesis Hinj : unambiguous tbl ks.

Definition trig (o : out_down) : key := get_trigger_key (od_trigger o).

Inductive pinv (down : list key) (last : Z) (s : state) : Prop :=
| Pinv : forall l d, sh l last d [] s -> used l -> devices l -> NoDup (map ek l) -> incl (map ek l) ks ->
    (forall k, In k down <-> In k (map ek l)) -> Forall regular d ->
    (forall o, In o d -> In (trig o) (map ek l) /\ od_key o = substitute tbl (trig o)) ->
    (forall k, In k (map ek l) -> In k (map trig d)) -> NoDup (map trig d) -> pinv down last s.

Lemma find_index_In : forall A (f : A -> bool) l i, find_index f l = Some i -> exists x, In x l /\ f x = true /\ nth_error l i = Some x.
Proof.
  induction l as [|x l IH]; intros i H; [discriminate|]. cbn in H. destruct (f x) eqn:E.
  - injection H as <-. exists x. cbn. auto.
  - destruct (find_index f l); [|discriminate]. injection H as <-. destruct (IH _ eq_refl) as (y & H1 & H2 & H3). exists y. cbn. auto.
Qed.

Lemma map_update_at : forall A B (f : A -> B) g l i, (forall x, f (g x) = f x) -> map f (update_at i g l) = map f l.
Proof. induction l as [|x l IH]; intros [|i] H; cbn; auto; [rewrite H; reflexivity|rewrite IH; auto]. Qed.

Lemma In_update_at : forall A (g : A -> A) l i y, In y (update_at i g l) -> In y l \/ exists x, In x l /\ y = g x.
Proof.
  induction l as [|x l IH]; intros [|i] y H; cbn in *; auto.
  - destruct H as [H|H]; [right; exists x; auto|auto].
  - destruct H as [H|H]; [auto|]. destruct (IH _ _ H) as [H1|(z & H1 & H2)]; [auto|right; exists z; auto].
Qed.

Lemma press_inv : forall l d k t ci down, incl (map ek l) ks -> In k ks ->
  (forall o, In o d -> In (trig o) (map ek l) /\ od_key o = substitute tbl (trig o)) ->
  (forall k, In k (map ek l) -> In k (map trig d)) -> NoDup (map trig d) -> Forall regular d ->
  get_trigger_key t = k -> down = k :: map ek l ->
  let d' := press (substitute tbl k) t ci d in
  (forall o, In o d' -> In (trig o) down /\ od_key o = substitute tbl (trig o)) /\
  (forall j, In j down -> In j (map trig d')) /\ NoDup (map trig d') /\ Forall regular d'.
Proof.
  intros l d k t ci down Hl Hk H1 H2 H3 H4 Ht -> d'. unfold d', press. clear d'.
  destruct (find_index _ d) as [i|] eqn:Ei.
  - destruct (find_index_In _ _ _ _ Ei) as (o & Ho & Eo & _). apply N.eqb_eq in Eo.
    destruct (H1 o Ho) as [Ho1 Ho2]. assert (Etk : trig o = k).
    { apply Hinj; auto. congruence. }
    rewrite map_update_at by reflexivity. split; [|split; [|split; [exact H3|]]].
    + intros y Hy. apply In_update_at in Hy. destruct Hy as [Hy|(x & Hy & ->)].
      * destruct (H1 y Hy). split; [right|]; assumption.
      * destruct (H1 x Hy). split; [right|]; assumption.
    + intros j [<-|Hj]; [apply in_map_iff; exists o; auto|auto].
    + apply Forall_forall. intros y Hy. rewrite Forall_forall in H4. apply In_update_at in Hy. destruct Hy as [Hy|(x & Hy & ->)].
      * auto.
      * destruct (H4 x Hy). split; auto.
  - assert (Hno : ~ In k (map trig d)).
    { intros Hi. apply in_map_iff in Hi. destruct Hi as (o & Eo & Ho). destruct (H1 o Ho) as [_ E].
      assert (Hnone : forall A (f : A -> bool) l x, find_index f l = None -> In x l -> f x = false).
      { clear. induction l as [|y l IH]; intros x H Hx; [destruct Hx|]. cbn in H. destruct (f y) eqn:E; [discriminate|].
        destruct (find_index f l); [discriminate|]. destruct Hx as [<-|Hx]; auto. }
      apply (Hnone _ _ _ o Ei) in Ho. cbn in Ho. rewrite E, Eo, N.eqb_refl in Ho. discriminate. }
    rewrite map_app. cbn [map]. change (trig (OD (substitute tbl k) t false false false ci)) with (get_trigger_key t). rewrite Ht. split; [|split; [|split]].
    + intros y Hy. apply in_app_or in Hy. destruct Hy as [Hy|[<-|[]]].
      * destruct (H1 y Hy). split; [right|]; assumption.
      * unfold trig. cbn [od_trigger od_key]. rewrite Ht. split; [left|]; reflexivity.
    + intros j [<-|Hj]; apply in_or_app; [right; left; reflexivity|left; auto].
    + clear -H3 Hno. induction (map trig d) as [|x xs IH]; cbn; [repeat constructor; auto|].
      inversion_clear H3. constructor; [|apply IH; [assumption|intros Hi; apply Hno; right; exact Hi]].
      intros Hi. apply in_app_or in Hi. destruct Hi as [Hi|[<-|[]]]; [auto|apply Hno; left; reflexivity].
    + apply Forall_app. split; [exact H4|]. constructor; [split; reflexivity|constructor].
Qed.

Lemma freed_one : forall d k, Forall regular d -> NoDup (map trig d) ->
  (forall o, In o d -> od_key o = substitute tbl (trig o)) ->
  freed k d = if in_dec N.eq_dec k (map trig d) then [ev0 (substitute tbl k) Up] else [].
Proof.
  intros d k H1 H2 H3. unfold freed.
  assert (E : List.filter (fun o => get_trigger_key (od_trigger o) =? k) d = [] /\ ~ In k (map trig d) \/
              exists o, List.filter (fun o => get_trigger_key (od_trigger o) =? k) d = [o] /\ In o d /\ trig o = k).
  { clear H1 H3. induction d as [|o d IH]; [left; auto|]. cbn [map] in H2. inversion_clear H2 as [|? ? Ho Hd].
    cbn [List.filter map]. fold (trig o). destruct (N.eqb_spec (trig o) k) as [E|E].
    - right. exists o. split; [|split; [left; reflexivity|exact E]]. destruct (IH Hd) as [[-> _]|(x & _ & Hx & Ex)]; [reflexivity|].
      exfalso. apply Ho. rewrite E, <- Ex. apply in_map. exact Hx.
    - destruct (IH Hd) as [[-> Hn]|(x & Hx1 & Hx2 & Hx3)]; [left; split; [reflexivity|intros [H|H]; auto]|].
      right. exists x. auto using in_cons. }
  destruct E as [[-> Hn]|(o & -> & Ho & Eo)].
  - cbn. destruct (in_dec _ _ _); [contradiction|reflexivity].
  - cbn. rewrite Forall_forall in H1. destruct (H1 o Ho) as [Et _]. rewrite Et. cbn. rewrite (H3 o Ho), Eo.
    destruct (in_dec _ _ _) as [|Hn]; [reflexivity|]. exfalso. apply Hn. rewrite <- Eo. apply in_map. exact Ho.
Qed.

Lemma existsb_In : forall k l, existsb (N.eqb k) l = true <-> In k l.
Proof.
  intros k l. rewrite existsb_exists. split; [intros (x & Hx & E); apply N.eqb_eq in E; subst; exact Hx|].
  intros H. exists k. split; [exact H|apply N.eqb_refl].
Qed.

Lemma filter_neq_In : forall k x l, In x (List.filter (fun j => negb (j =? k)) l) <-> In x l /\ x <> k.
Proof.
  intros k x l. rewrite filter_In. split; intros [H1 H2]; split; auto.
  - apply negb_true_iff, N.eqb_neq in H2. exact H2.
  - apply negb_true_iff, N.eqb_neq. exact H2.
Qed.

Theorem run_substitutes : forall l down down' last s,
  typed_on down last l -> (forall k, In k down <-> In k down') -> Forall (fun x => In (ek (fst x)) ks) l ->
  pinv down last s ->
  map action (snd (run cs (map (fun x => CInput (fst x) (snd x)) l) s)) =
  map (substituted tbl) (effective down' (map fst l)).
Proof.
  induction l as [|[e dev] l IH]; intros down down' last s Ht Hdd Hks Hi; [reflexivity|].
  inversion_clear Hks as [|? ? Hke Hks']. cbn [fst] in Hke.
  cbn [map run do_call fst snd]. cbn [typed_on] in Ht. destruct Ht as (He & Hdev & Ht).
  destruct Hi as [q d Hsh Hu Hdv Hnd Hin Hdown Hreg Hkey Htrig Hone].
  destruct (update cs e dev s) as [s1 o1] eqn:Eu.
  destruct (run cs (map (fun x => CInput (fst x) (snd x)) l) s1) as [s2 o2] eqn:Er. cbn [snd].
  rewrite map_app. cbn [effective]. destruct (es e) eqn:Hes; try contradiction.
  - destruct (update_release q e dev last d s Hsh Hdev Hu Hdv Hnd He Hes Hreg) as [H1 H2].
    rewrite Eu in H1, H2. cbn [fst snd] in H1, H2. subst o1.
    assert (Hi1 : pinv (List.filter (fun k => negb (k =? ek e)) down) last s1).
    { apply (Pinv _ _ _ (removed (ek e) q) (kept (ek e) d)); auto.
      - apply used_removed; assumption.
      - apply devices_removed; assumption.
      - apply removed_NoDup; assumption.
      - intros k Hk. apply removed_In in Hk. apply Hin. tauto.
      - intros k. rewrite filter_neq_In, removed_In, Hdown. reflexivity.
      - apply Forall_forall. intros o Ho. apply filter_In in Ho. rewrite Forall_forall in Hreg. apply Hreg. tauto.
      - intros o Ho. apply filter_In in Ho. destruct Ho as [Ho E]. apply negb_true_iff, N.eqb_neq in E.
        destruct (Hkey o Ho) as [K1 K2]. split; [apply removed_In; split; [exact K1|exact E]|exact K2].
      - intros k Hk. apply removed_In in Hk. destruct Hk as [Hk E]. apply Htrig in Hk. apply in_map_iff in Hk.
        destruct Hk as (o & Eo & Ho). apply in_map_iff. exists o. split; [exact Eo|]. apply filter_In. split; [exact Ho|].
        apply negb_true_iff, N.eqb_neq. fold (trig o). congruence.
      - clear -Hone. unfold kept. induction d as [|o d IH]; [constructor|]. cbn in Hone. inversion_clear Hone as [|? ? Ho Hd].
        cbn. destruct (negb _); [|auto]. cbn. constructor; [|auto]. intros Hi. apply Ho. apply in_map_iff in Hi.
        destruct Hi as (x & Ex & Hx). apply filter_In in Hx. apply in_map_iff. exists x. tauto. }
    rewrite freed_one; [|assumption|assumption|intros o Ho; apply Hkey; exact Ho].
    destruct (in_dec N.eq_dec (ek e) (map trig d)) as [Hx|Hx].
    + assert (Hq : In (ek e) (map ek q)).
      { apply in_map_iff in Hx. destruct Hx as (o & Eo & Ho). rewrite <- Eo. apply Hkey. exact Ho. }
      assert (Eb : existsb (N.eqb (ek e)) down' = true) by (apply existsb_In; apply Hdd; apply Hdown; exact Hq).
      rewrite Eb. cbn [map app]. unfold substituted at 1. rewrite Hes. unfold action at 1. cbn [ev0 ek es]. f_equal.
      pose proof (IH _ (List.filter (fun k => negb (k =? ek e)) down') last s1 Ht) as IH'. rewrite Er in IH'. apply IH'; auto.
      intros k. rewrite !filter_neq_In, Hdd. reflexivity.
    + assert (Hq : ~ In (ek e) (map ek q)) by (intros H; apply Hx; apply Htrig; exact H).
      assert (Eb : existsb (N.eqb (ek e)) down' = false).
      { apply not_true_iff_false. rewrite existsb_In, <- Hdd, Hdown. exact Hq. }
      rewrite Eb. cbn [map app].
      pose proof (IH _ down' last s1 Ht) as IH'. rewrite Er in IH'. apply IH'; auto.
      intros k. rewrite filter_neq_In. specialize (Hdd k). specialize (Hdown k). split; [tauto|]. intros H. split; [tauto|].
      intros E. apply Hq. rewrite <- E. tauto.
  - assert (Hrep : In (ek e) (map ek q) -> dev = last \/ dev = no_device).
    { intros Hq. apply Hdown in Hq. apply existsb_In in Hq. rewrite Hq in Ht. apply Ht. }
    destruct (update_press q e dev last d s Hsh Hdev Hu Hdv Hnd He Hes Hreg Hrep) as (e' & t & ci & p' & G1 & G2 & G3 & G4 & G5 & G6).
    rewrite Eu in G5, G6. cbn [fst snd] in G5, G6. subst o1. rewrite G1 in G5.
    destruct (press_inv q d (ek e) t ci (ek e :: map ek q) Hin Hke Hkey Htrig Hone Hreg G3 eq_refl) as (P1 & P2 & P3 & P4).
    cbn [map app]. unfold substituted at 1. rewrite Hes. unfold action at 1. rewrite G1, G2. f_equal.
    assert (Hmem : forall k, In k (map ek (removed (ek e) q ++ [set_es DownMatched e])) <-> In k (ek e :: map ek q)).
    { intros k. rewrite map_app, in_app_iff, removed_In. cbn. destruct (N.eq_dec k (ek e)) as [E|E]; [rewrite E; split; intros _; [left|right; left]; reflexivity|]. intuition congruence. }
    assert (Hi1 : forall dn, (forall k, In k dn <-> In k (ek e :: map ek q)) -> pinv dn p' s1).
    { intros dn Hdn. apply (Pinv _ _ _ (removed (ek e) q ++ [set_es DownMatched e]) (press (substitute tbl (ek e)) t ci d)); auto.
      - apply Forall_app. split; [apply used_removed; assumption|]. constructor; [reflexivity|constructor].
      - apply Forall_app. split; [apply devices_removed; assumption|]. constructor; [exact He|constructor].
      - rewrite map_app. cbn. pose proof (removed_NoDup (ek e) q Hnd) as Hr. pose proof (removed_In (ek e) q (ek e)) as Hr2.
        assert (Hr3 : ~ In (ek e) (map ek (removed (ek e) q))) by tauto. clear -Hr Hr3.
        induction (map ek (removed (ek e) q)) as [|x xs IH]; cbn; [repeat constructor; auto|].
        inversion_clear Hr. constructor; [|apply IH; [assumption|intros Hi; apply Hr3; right; exact Hi]].
        intros Hi. apply in_app_or in Hi. destruct Hi as [Hi|[E|[]]]; [auto|apply Hr3; left; symmetry; exact E].
      - intros k Hk. apply Hmem in Hk. destruct Hk as [<-|Hk]; auto.
      - intros k. rewrite Hmem. apply Hdn.
      - intros o Ho. rewrite Hmem. apply P1. exact Ho.
      - intros k Hk. apply Hmem in Hk. apply P2. exact Hk. }
    destruct (existsb (N.eqb (ek e)) down) eqn:Eb.
    + destruct Ht as [_ Ht]. apply existsb_In in Eb. assert (Hq : In (ek e) (map ek q)) by (apply Hdown; exact Eb).
      assert (Ep : p' = last) by (rewrite G4; destruct (in_dec _ _ _); [reflexivity|contradiction]). rewrite Ep in Hi1.
      pose proof (IH down (ek e :: down') last s1 Ht) as IH'. rewrite Er in IH'. apply IH'; auto.
      * intros k. rewrite Hdd. cbn. split; [auto|]. intros [<-|H]; [apply Hdd; exact Eb|exact H].
      * apply Hi1. intros k. rewrite Hdown. cbn. split; [auto|]. intros [<-|H]; [exact Hq|exact H].
    + assert (Hq : ~ In (ek e) (map ek q)).
      { intros Hq. apply Hdown in Hq. apply existsb_In in Hq. congruence. }
      assert (Ep : p' = if (dev =? no_device)%Z then last else dev) by (rewrite G4; destruct (in_dec _ _ _); [contradiction|reflexivity]).
      rewrite <- Ep in Ht.
      pose proof (IH (ek e :: down) (ek e :: down') p' s1 Ht) as IH'. rewrite Er in IH'. apply IH'; auto.
      * intros k. cbn. rewrite Hdd. reflexivity.
      * apply Hi1. intros k. cbn. rewrite Hdown. reflexivity.
Qed.

Lemma pinv_start : forall s, sh [] no_device [] [] s -> pinv [] no_device s.
Proof.
  intros s H. apply (Pinv _ _ _ [] []); try exact H; try (constructor; fail); try (intros ? []).
  intros k. reflexivity.
Qed.

Lemma contexts_start : sh [] no_device [] [] (fst (set_active_client_contexts cs il init_state)) /\
  snd (set_active_client_contexts cs il init_state) = [].
Proof.
  unfold set_active_client_contexts, update_active_contexts.
  cbn [init_state set_client s_seq s_client s_active]. rewrite tables_eval.
  assert (E1 : toggled true [] il = il) by (clear; induction il as [|i l IH]; [reflexivity|]; cbn in *; rewrite IH; reflexivity).
  assert (E2 : toggled false [] il = []) by (clear; induction il as [|i l IH]; [reflexivity|]; cbn in *; exact IH).
  rewrite E1, E2. cbn [fold_left].
  assert (G : forall s, fold_left (fun s c => on_context_active_event cs (ev0 k_ContextActive Down) c s) il s = s).
  { destruct Htab as [_ HF]. clear -HF Hkeys. unfold tbl in *. clear tbl. induction HF as [|i t l ts' [c [Hc Ht]] HF IH]; intros s; [reflexivity|].
    cbn [concat] in Hkeys. apply Forall_app in Hkeys. destruct Hkeys as [Hk1 Hk2].
    cbn [fold_left]. rewrite IH by exact Hk2. unfold on_context_active_event. rewrite Hc. destruct Ht as [HF2 _].
    assert (E1 : forallb (fun i => match in_seq i with [] => false | _ => true end) (cx_inputs c) = true).
    { clear -HF2. induction HF2 as [|ab i t l [H _] HF IH]; [reflexivity|]. cbn. rewrite H. exact IH. }
    assert (E2 : find (fun i => match in_seq i with x :: _ => ek x =? k_ContextActive | [] => false end) (cx_inputs c) = None).
    { clear -HF2 Hk1. induction HF2 as [|ab i t l [H _] HF IH]; [reflexivity|]. inversion_clear Hk1 as [|? ? [Ha _] Hk'].
      cbn [find]. rewrite H. cbn [ev0 ek]. destruct (device_key_real _ Ha) as (_ & _ & _ & _ & Hca).
      apply N.eqb_neq in Hca. rewrite Hca. auto. }
    rewrite E1, E2. reflexivity. }
  rewrite G. cbn. split; [constructor|reflexivity].
Qed.
End Table.
