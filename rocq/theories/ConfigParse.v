(** Reading a configuration keeps the contexts, the logical keys and the forwarded
    modifiers in shape (continuation of ConfigShape.v). *)
From Coq Require Import String Ascii List NArith ZArith Bool Lia.
From Verif Require Import Base Key KeyNames Text TextSpec TextProofs Match ParseSeq ParseProofs ParseSpec ParseOutput
  ParseInput Stage Config ConfigShape.
Import ListNotations.
Local Open Scope N_scope.

(** * Keys and their names *)

Lemma try_parse_key_code_lt : forall n, try_parse_key_code n < 0xF000.
Proof.
  intros [|c [|d r]]; try reflexivity. unfold try_parse_key_code.
  destruct (is_digit c); [|reflexivity].
  match goal with |- context[match ?e with Some _ => _ | None => _ end] => destruct e as [z|] end; [|reflexivity].
  destruct ((0 <? z)%Z && (z <? 0xF000)%Z) eqn:E; [|reflexivity]. apply andb_prop in E.
  destruct E as [A B]. apply Z.ltb_lt in A, B. lia.
Qed.
Lemma lookup_name_lt : forall b l, forallb (fun x : string * key => snd x <? b) l = true -> 0 < b ->
  forall n, lookup_name n l < b.
Proof.
  intros b l. induction l as [|[m k] l IH]; intros H Hb n; [exact Hb|]. cbn [forallb snd] in H.
  apply andb_prop in H. destruct H as [A B]. apply N.ltb_lt in A. cbn [lookup_name].
  destruct (text_eqb n (T m)); [exact A|]. now apply IH.
Qed.
Lemma key_names_lt : forall n, lookup_name n key_names < first_logical + 4.
Proof. apply lookup_name_lt; vm_compute; reflexivity. Qed.
Lemma lookup_common_lt : forall n, lookup_common n < first_logical + 4.
Proof.
  intros n. unfold lookup_common. pose proof (key_names_lt n) as H.
  destruct (lookup_name n key_names) as [|p]; [|exact H].
  apply lookup_name_lt; vm_compute; reflexivity.
Qed.
Lemma get_key_by_name_lt : forall n, get_key_by_name n < first_logical + 4.
Proof.
  intros n. unfold get_key_by_name. destruct (text_eqb n (T "Any")); [reflexivity|].
  pose proof (try_parse_key_code_lt n) as H. destruct (try_parse_key_code n) as [|p].
  - assert (P : forall m, lookup_prefixed m < first_logical + 4).
    { intros m. unfold lookup_prefixed. destruct (remove_prefix "Key" m) as [[|c [|d r]]|]; try reflexivity.
      - destruct (in_codes 65 90 c); [apply lookup_common_lt|reflexivity].
      - destruct (remove_prefix "Digit" m) as [[|c [|d r]]|]; try reflexivity; [|apply lookup_common_lt].
        destruct (is_digit c); [apply lookup_common_lt|reflexivity]. }
    destruct (remove_prefix "Virtual" n) as [m|]; [|apply P].
    destruct ((0 <=? atoi m)%Z && (atoi m <=? 255)%Z) eqn:E; [|apply P].
    apply andb_prop in E. destruct E as [A B]. apply Z.leb_le in A, B.
    unfold first_virtual, first_logical. lia.
  - unfold first_logical. lia.
Qed.

(** The logical keys in the order of their definition; each one stands for keys which
    are not logical or were defined before. *)
Definition logical_ok (l : list logical_key) : Prop :=
  (4 <= length l)%nat /\
  forall i k, nth_error l i = Some k ->
    lk_both k = first_logical + N.of_nat i /\
    (lk_left k <> 0 /\ lk_left k < lk_both k) /\ (lk_right k <> 0 /\ lk_right k < lk_both k).

Lemma logical_lk_ok : forall l, logical_ok l -> Forall lk_ok l.
Proof.
  intros l [_ H]. apply Forall_forall. intros k Hk. apply In_nth_error in Hk. destruct Hk as [i Hi].
  destruct (H i k Hi) as [A [[B _] [C _]]]. repeat split; auto; rewrite A;
    unfold first_logical, k_timeout; lia.
Qed.
Lemma cfg_key_lt : forall l n, logical_ok l -> cfg_key_by_name l n < first_logical + N.of_nat (length l).
Proof.
  intros l n [L H]. unfold cfg_key_by_name. pose proof (get_key_by_name_lt n) as G.
  destruct (get_key_by_name n) as [|p].
  - unfold find_logical. destruct (find _ l) as [k|] eqn:E.
    + apply find_some in E. destruct E as [E _]. apply In_nth_error in E. destruct E as [i Hi].
      destruct (H i k Hi) as [-> _]. assert (i < length l)%nat by (apply nth_error_Some; congruence). lia.
    + unfold k_none, first_logical. lia.
  - lia.
Qed.
Lemma nth_error_snoc : forall {A} (l : list A) x i y, nth_error (l ++ [x]) i = Some y ->
  nth_error l i = Some y \/ (i = length l /\ y = x).
Proof.
  intros A l x i y H. destruct (Nat.lt_ge_cases i (length l)) as [C|C].
  - left. now rewrite nth_error_app1 in H by exact C.
  - right. rewrite nth_error_app2 in H by exact C. destruct (i - length l)%nat as [|j] eqn:E; [|now destruct j].
    injection H as <-. split; [lia|reflexivity].
Qed.
Lemma add_logical_ok : forall l name a b, logical_ok l -> N.of_nat (length l) < 3328 ->
  a <> 0 -> b <> 0 -> a < first_logical + N.of_nat (length l) -> b < first_logical + N.of_nat (length l) ->
  logical_ok (l ++ [LK name ((first_logical + N.of_nat (length l)) mod 65536) a b]).
Proof.
  intros l name a b [L H] Hl Ha Hb La Lb.
  assert (M : (first_logical + N.of_nat (length l)) mod 65536 = first_logical + N.of_nat (length l))
    by (apply N.mod_small; unfold first_logical; lia).
  rewrite M. clear M. split; [rewrite app_length; lia|]. intros i k Hi.
  apply nth_error_snoc in Hi. destruct Hi as [Hi|[-> ->]]; [now apply H|].
  cbn [lk_both lk_left lk_right]. split; [reflexivity|]. now repeat split.
Qed.

(** * The state while reading *)

Definition bounded (c : cstate) : Prop :=
  (length (c_actions c) <= 256)%nat /\ N.of_nat (length (c_logical c)) <= 3328.
(** The outputs belong to the inputs which are no commands, in their order. *)
Definition direct_outs (x : cctx) : list Z := List.filter (fun z => 0 <=? z)%Z (map in_out (cc_inputs x)).
Definition uniq (x : cctx) : Prop := direct_outs x = map Z.of_nat (seq 0 (length (cc_outputs x))).
Section Weak.
(** As in ConfigShape.v: [W] holds when the bounds are of interest. *)
Variable W : Prop.
Record Good (c : cstate) : Prop := GS {
  g_contexts : cgood W (c_contexts c);
  g_logical : W -> logical_ok (c_logical c);
  g_forward : W -> Forall (fun k : key => k <> 0) (c_forward c);
  g_commands : Forall (fun x => (nc_index x < 0)%Z) (c_commands c);
  g_after : c_after_empty c = true -> forall x, back (c_contexts c) = Some x -> cc_stage x = false;
  g_first : match c_contexts c with x :: _ => cc_stage x = true | [] => False end;
  g_uniq : Forall uniq (c_contexts c)
}.
Definition grows (c c' : cstate) : Prop :=
  (length (c_actions c) <= length (c_actions c'))%nat /\
  (length (c_logical c) <= length (c_logical c'))%nat.
Definition ext (c c' : cstate) : Prop := grows c c' /\ ((W -> bounded c') -> Good c -> Good c').

Lemma grows_bounded : forall c c', grows c c' -> bounded c' -> bounded c.
Proof. intros c c' [A B] [C D]. split; lia. Qed.
Lemma ext_refl : forall c, ext c c.
Proof. intros c. split; [split; lia|auto]. Qed.
Lemma ext_trans : forall a b c, ext a b -> ext b c -> ext a c.
Proof.
  intros a b c [[A1 A2] A] [[B1 B2] B]. split; [split; lia|]. intros Hc Ha.
  apply B; [exact Hc|]. apply A; [|exact Ha]. intros w. specialize (Hc w). now apply (grows_bounded b c).
Qed.
(** Only members which do not matter here differ. *)
Definition same_core (c c' : cstate) : Prop :=
  c_contexts c' = c_contexts c /\ c_actions c' = c_actions c /\ c_logical c' = c_logical c /\
  c_forward c' = c_forward c /\ c_commands c' = c_commands c /\
  (c_after_empty c' = true -> c_after_empty c = true).
Lemma same_core_ext : forall c c', same_core c c' -> ext c c'.
Proof.
  intros c c' [A [B [C [D [F H]]]]]. split; [split; rewrite ?B, ?C; lia|].
  intros _ [G1 G2 G3 G4 G5 G6 G7]. split; rewrite ?A, ?C, ?D, ?F; auto.
Qed.
Ltac core := solve [apply same_core_ext; repeat split; auto; discriminate].

Lemma Forall_update_last : forall {A} (P : A -> Prop) f l, (forall x, back l = Some x -> P x -> P (f x)) ->
  Forall P l -> Forall P (map_last f l).
Proof.
  intros A P f l Hf H. unfold map_last. destruct l as [|x l] using rev_ind; [constructor|]. clear IHl.
  rewrite app_length. cbn [length]. rewrite Nat.add_sub. apply Forall_app in H. destruct H as [H1 H2].
  replace (update_at (length l) f (l ++ [x])) with (l ++ [f x]).
  - apply Forall_app. split; [exact H1|]. inversion_clear H2 as [|? ? Hx _]. constructor; [|constructor].
    apply Hf; [apply back_last|exact Hx].
  - clear. induction l as [|y l IH]; [reflexivity|]. cbn [length app update_at]. now rewrite <- IH.
Qed.
Definition keeps_marks (f : cctx -> cctx) : Prop :=
  forall x, cc_fall (f x) = cc_fall x /\ cc_stage (f x) = cc_stage x /\ cc_mods (f x) = cc_mods x /\
    conds (f x) = conds x.
Lemma map_last_good : forall f l, keeps_marks f ->
  (W -> forall x, back l = Some x -> cwf x -> cwf (f x)) -> cgood W l -> cgood W (map_last f l).
Proof.
  intros f l Hf Hw [N Wf Pl C]. split.
  - now apply update_nil.
  - intros w. apply Forall_update_last; auto.
  - apply Forall_update; [|exact Pl]. intros x Hx E. destruct (Hf x) as [Ef [Es [Em Ey]]]. rewrite Em, Ey, Ef. apply Hx. congruence.
  - apply chain_update; [|exact C]. intros x. destruct (Hf x) as [A [B _]]. now split.
Qed.
Definition stages_of (l : list cctx) : list bool := map cc_stage l.
Lemma stages_last : forall l m x, stages_of l = stages_of m -> back l = Some x ->
  exists y, back m = Some y /\ cc_stage y = cc_stage x.
Proof.
  intros l m x E B. destruct l as [|x' l _] using rev_ind; [discriminate|]. rewrite back_last in B. injection B as ->.
  unfold stages_of in E. rewrite map_app in E. destruct m as [|y m _] using rev_ind.
  - destruct (map cc_stage l); discriminate.
  - rewrite map_app in E. apply app_inj_tail in E. exists y. split; [apply back_last|]. now destruct E as [_ E].
Qed.
Lemma stages_marks : forall l m, stages_of m = stages_of l ->
  ((forall x, back l = Some x -> cc_stage x = false) -> forall x, back m = Some x -> cc_stage x = false) /\
  (match l with x :: _ => cc_stage x = true | [] => False end ->
   match m with x :: _ => cc_stage x = true | [] => False end).
Proof.
  intros l m E. split.
  - intros H x B. destruct (stages_last _ _ _ E B) as [y [By Ey]]. rewrite <- Ey. now apply H.
  - destruct l, m; try discriminate; auto. injection E as E _. congruence.
Qed.
Lemma stages_update : forall f l n, (forall x, cc_stage (f x) = cc_stage x) -> stages_of (update_at n f l) = stages_of l.
Proof. intros f. unfold stages_of. induction l as [|x l IH]; intros [|n] H; cbn; auto; [now rewrite H|now rewrite IH]. Qed.
Lemma stages_map_last : forall f l, keeps_marks f -> stages_of (map_last f l) = stages_of l.
Proof. intros f l H. apply stages_update. intros x. apply H. Qed.
Lemma marks_upd : forall f c c', keeps_marks f -> c_contexts c' = map_last f (c_contexts c) ->
  c_after_empty c' = c_after_empty c ->
  (c_after_empty c = true -> forall x, back (c_contexts c) = Some x -> cc_stage x = false) ->
  match c_contexts c with x :: _ => cc_stage x = true | [] => False end ->
  (c_after_empty c' = true -> forall x, back (c_contexts c') = Some x -> cc_stage x = false) /\
  match c_contexts c' with x :: _ => cc_stage x = true | [] => False end.
Proof.
  intros f c c' Hf E A G5 G6. destruct (stages_marks _ _ (stages_map_last f (c_contexts c) Hf)) as [M1 M2].
  rewrite E, A. split; [|now apply M2]. intros B. apply M1, G5, B.
Qed.
Lemma good_upd : forall f c c', keeps_marks f -> (forall x, uniq x -> uniq (f x)) -> c_contexts c' = map_last f (c_contexts c) ->
  c_after_empty c' = c_after_empty c -> Good c -> cgood W (c_contexts c') ->
  (W -> logical_ok (c_logical c')) -> (W -> Forall (fun k : key => k <> 0) (c_forward c')) ->
  Forall (fun x => (nc_index x < 0)%Z) (c_commands c') -> Good c'.
Proof.
  intros f c c' Hf Hu E A [G1 G2 G3 G4 G5 G6 G7] H1 H2 H3 H4. destruct (marks_upd f c c' Hf E A G5 G6). split; auto.
  rewrite E. apply Forall_update; auto.
Qed.
Lemma uniq_command : forall x i n, (n < 0)%Z -> uniq x ->
  uniq (cc_set_maps (cc_inputs x ++ [Inp i n]) (cc_outputs x) (cc_commands x) x).
Proof.
  intros x i n Hn H. unfold uniq, direct_outs in *. cbn [cc_inputs cc_outputs cc_set_maps].
  rewrite map_app, filter_app, H. cbn [map List.filter in_out].
  destruct (0 <=? n)%Z eqn:E; [apply Z.leb_le in E; lia|]. now rewrite app_nil_r.
Qed.
Lemma uniq_mapping : forall x i o, uniq x ->
  uniq (cc_set_maps (cc_inputs x ++ [Inp i (Z.of_nat (length (cc_outputs x)))]) (cc_outputs x ++ [o]) (cc_commands x) x).
Proof.
  intros x i o H. unfold uniq, direct_outs in *. cbn [cc_inputs cc_outputs cc_set_maps].
  rewrite map_app, filter_app, H, app_length. cbn [map List.filter in_out length].
  destruct (0 <=? Z.of_nat (length (cc_outputs x)))%Z eqn:E; [|apply Z.leb_gt in E; lia].
  rewrite Nat.add_1_r, seq_S, map_app. reflexivity.
Qed.
Ltac uniqs := intros; try (apply uniq_mapping; assumption); try (apply uniq_command; [|assumption]); try assumption.
Ltac upd c := eapply (good_upd _ c); [| |reflexivity|reflexivity|now split| | | |];
  [now repeat split|uniqs| | | |]; auto.
Lemma good_ext : forall c c', grows c c' -> ((W -> bounded c') -> Good c -> Good c') -> ext c c'.
Proof. intros. now split. Qed.
Lemma commands_ext : forall l c, (Forall (fun x => (nc_index x < 0)%Z) (c_commands c) ->
    Forall (fun x => (nc_index x < 0)%Z) l) -> ext c (c_set_commands l c).
Proof. intros l c H. split; [split; cbn; lia|]. intros _ [G1 G2 G3 G4 G5 G6 G7]. split; auto. Qed.

Lemma add_input_good : forall i n l, fit_input i -> (n < 0)%Z -> cgood W l ->
  cgood W (map_last (fun x => cc_set_maps (cc_inputs x ++ [Inp i n]) (cc_outputs x) (cc_commands x) x) l).
Proof.
  intros i n l Hi Hn G. apply map_last_good; [now repeat split| |exact G].
  intros w x _ [A B C D]. split; cbn [cc_inputs cc_outputs cc_commands cc_set_maps]; auto.
  apply Forall_app. split; [exact A|]. constructor; [|constructor]. split; cbn; [exact Hi|lia].
Qed.
Lemma add_command_ext : forall i name c, fit_input i -> ext c (add_command i name c).
Proof.
  intros i name c Hi. unfold add_command. destruct (find_named name c) as [x|] eqn:E.
  - split; [split; cbn; lia|]. intros _ [G1 G2 G3 G4 G5 G6 G7]. 
    assert (Hx : (nc_index x < 0)%Z).
    { unfold find_named in E. apply find_some in E. rewrite Forall_forall in G4. now apply G4. }
    upd c. cbn [c_contexts c_set_contexts upd_context]. apply add_input_good; auto.
  - split; [split; cbn; lia|]. intros _ [G1 G2 G3 G4 G5 G6 G7]. upd c.
    + lia.
    + cbn [c_contexts c_set_contexts upd_context c_set_commands]. apply add_input_good; auto. lia.
    + cbn [c_commands upd_context c_set_contexts c_set_commands]. apply Forall_app. split; [exact G4|].
      constructor; [cbn; lia|constructor].
Qed.
Lemma add_mapping_good : forall i o l, fit_input i -> (W -> Ook o) -> cgood W l ->
  cgood W (map_last (fun x =>
    cc_set_maps (cc_inputs x ++ [Inp i (Z.of_nat (length (cc_outputs x)))])
                (cc_outputs x ++ [o]) (cc_commands x) x) l).
Proof.
  intros i o l Hi Ho G. apply map_last_good; [now repeat split| |exact G].
  intros w x _ [A B C D]. split; cbn [cc_inputs cc_outputs cc_commands cc_set_maps]; auto.
  - rewrite app_length. cbn [length]. apply Forall_app. split.
    + eapply Forall_impl; [|exact A]. intros y. apply iwf_le. lia.
    + constructor; [|constructor]. split; cbn [in_seq in_out]; [exact Hi|]. intros _. rewrite Nat2Z.id. lia.
  - apply Forall_app. auto.
Qed.
Lemma add_command_mapping_ext : forall name o c c', (W -> bounded c -> Good c -> Ook o) ->
  add_command_mapping name o c = POk c' -> ext c c'.
Proof.
  intros name o c c' Ho H. unfold add_command_mapping in H.
  destruct (find_named name c) as [x|] eqn:E; [|discriminate].
  destruct (existsb _ _) eqn:X; [discriminate|]. injection H as <-.
  split; [split; cbn; lia|]. intros Hb [G1 G2 G3 G4 G5 G6 G7].
  assert (Oo : W -> Ook o). { intros w. apply Ho; [exact w|exact (Hb w)|now split]. }
  upd c; cbn [c_contexts c_commands c_set_contexts upd_context c_set_commands].
  - apply map_last_good; [now repeat split| |exact G1].
    intros w y By [A B C D]. split; cbn [cc_inputs cc_outputs cc_commands cc_set_maps]; auto.
    + apply Forall_app. auto.
    + rewrite map_app. cbn [map cm_idx]. rewrite By in X. rewrite <- (rev_involutive (map cm_idx _ ++ _)).
      apply NoDup_rev. rewrite rev_app_distr. cbn [rev app]. constructor.
      * rewrite <- in_rev. intros F. apply in_map_iff in F. destruct F as [z [Ez Hz]].
        assert (T : existsb (fun o => (cm_idx o =? nc_index x)%Z) (cc_commands y) = true)
          by (apply existsb_exists; exists z; split; [exact Hz|now apply Z.eqb_eq]). congruence.
      * now apply NoDup_rev.
  - destruct (find_index _ (c_commands c)); [|exact G4]. apply Forall_update; auto.
Qed.

Section Parse.
Variable typer : option (key * bool) -> text -> list stroke.
Variable regex_ok : text -> bool -> bool.
Variable read_file : text -> option (list text).
Variable current_system : text.
Hypothesis good_typer : W -> forall c t, Forall (fun x => st_key x <> 0 /\ st_value x = 0) (typer c t).

Lemma parse_input_fit : forall c t i, parse_input typer c t = POk i -> fit_input i.
Proof.
  intros c t i H. unfold parse_input in H. apply pbind_ok in H. destruct H as [[l cmds] [H E]].
  injection E as <-. cbn [fst]. apply input_usable in H.
  apply usable_fit. destruct H as [H|[H _]]; auto.
Qed.

Lemma parse_output_ext : forall c t c' o, parse_output typer c t = POk (c', o) ->
  ext c c' /\ (W -> bounded c' -> Ook o).
Proof.
  intros c t c' o H. unfold parse_output in H. apply pbind_ok in H. destruct H as [[l cmds] [H E]].
  destruct (contains_key l k_ContextActive); [discriminate|]. injection E as <- <-. split.
  - split; [split; cbn; rewrite ?app_length; lia|]. intros _ [G1 G2 G3 G4 G5 G6 G7]. split; auto.
  - intros w [Hb _]. cbn in Hb. rewrite app_length in Hb. split.
    + match type of H with parse_sequence false ?g ?y ?k _ = _ =>
        apply (output_events g y k (fun n e => (length (c_actions c) + n <= 256)%nat -> wfo e)) in H end.
      * eapply Forall_impl; [|exact H]. cbn beta. auto.
      * intros n m e Hm Q Hl. apply Q. lia.
      * intros n k st [Nk _] _ _. split; cbn; auto.
      * intros n v _. split; cbn; auto. left. discriminate.
      * intros n _. split; cbn; auto.
      * intros n g s. apply string_output_events.
        -- intros _. split; cbn; auto. left. discriminate.
        -- intros m k st Hk _ _. split; cbn; auto. left. cbn in Hk.
           destruct Hk as [Hk|[Hk|[Hk|[Hk|[]]]]]; injection Hk as _ <-; discriminate.
        -- eapply Forall_impl; [|apply (good_typer w)]. intros x [A B].
           split; intros _; split; cbn; auto; rewrite B; auto.
      * intros f n Ef Hl. injection Ef as <-. split; cbn; auto. left. unfold action_key, first_action.
        rewrite N.mod_small by lia. lia.
    + eapply (output_obal _ _ _ false); [|exact H]. discriminate.
Qed.

Lemma parse_command_and_mapping_ext : forall i o c c',
  parse_command_and_mapping typer i o c = POk c' -> ext c c'.
Proof.
  intros i o c c' H. unfold parse_command_and_mapping in H. apply pbind_ok in H. destruct H as [s [Hi H]].
  apply parse_input_fit in Hi. destruct (parse_command_name c o) as [|a n].
  - apply pbind_ok in H. destruct H as [[c1 q] [Ho H]]. injection H as <-.
    apply parse_output_ext in Ho. destruct Ho as [A B]. eapply ext_trans; [exact A|].
    split; [split; cbn; lia|]. intros Hb [G1 G2 G3 G4 G5 G6 G7]. upd c1.
    cbn [add_mapping upd_context c_set_contexts c_contexts]. apply add_mapping_good; auto.
  - injection H as <-. now apply add_command_ext.
Qed.
Lemma parse_mapping_ext : forall t c c', parse_mapping typer t c = POk c' -> ext c c'.
Proof.
  intros t c c' H. unfold parse_mapping in H. destruct (read_ident t) as [ident q].
  assert (G : match skip_until (T ">>") (skip_space q) with
      | Some r => parse_command_and_mapping typer (removelast (removelast (before t r))) r c
      | None => PErr end = POk c' -> ext c c').
  { destruct (skip_until (T ">>") (skip_space q)) as [r|]; [|discriminate]. apply parse_command_and_mapping_ext. }
  destruct ident as [|a n]; [exact (G H)|]. destruct (skip (T ">>") (skip_space q)) as [r|]; [|exact (G H)].
  clear G. destruct (find_named (a :: n) c).
  - apply pbind_ok in H. destruct H as [[c1 o] [Ho H]]. apply parse_output_ext in Ho. destruct Ho as [A B].
    eapply ext_trans; [exact A|]. apply add_command_mapping_ext in H; auto.
  - destruct (starts_with_lower_case (a :: n)); [|now apply parse_command_and_mapping_ext in H].
    destruct (c_unmapped c); [|discriminate]. apply pbind_ok in H. destruct H as [[c1 o] [Ho H]].
    injection H as <-. now apply parse_output_ext in Ho.
Qed.
Lemma mappings_loop_ext : forall fuel it c c', mappings_loop typer fuel it c = POk c' -> ext c c'.
Proof.
  induction fuel as [|f IH]; intros it c c' H; [discriminate|]. cbn [mappings_loop] in H.
  destruct it as [|a it]; [injection H as <-; apply ext_refl|].
  apply pbind_ok in H. destruct H as [o [_ H]]. apply pbind_ok in H. destruct H as [c1 [H1 H]].
  apply parse_mapping_ext in H1. apply IH in H. eapply ext_trans; eassumption.
Qed.

Lemma read_ctx_attr : forall fuel c it x y q,
  attributes_loop regex_ok current_system fuel c it x = POk (y, q) ->
  same_maps x y /\ cc_fall y = cc_fall x /\ cc_stage y = cc_stage x.
Proof.
  induction fuel as [|f IH]; intros c it x y q H; [discriminate|]. cbn [attributes_loop] in H.
  destruct (read_ident it) as [attrib q1]. destruct attrib as [|a0 at0]; [discriminate|].
  set (attrib := a0 :: at0) in H. clearbody attrib.
  destruct (match skip (T "!") (skip_space q1) with Some r => (true, r) | None => (false, skip_space q1) end)
    as [inv q2].
  destruct (skip (T "=") q2) as [q3|]; [|discriminate].
  apply pbind_ok in H. destruct H as [[x1 q4] [H1 H]].
  assert (S1 : same_maps x x1 /\ cc_fall x1 = cc_fall x /\ cc_stage x1 = cc_stage x).
  { clear -H1.
    repeat match type of H1 with
    | (if ?b then _ else _) = _ => destruct b
    end; try discriminate;
    repeat match type of H1 with
    | pbind _ _ = POk _ => let z := fresh "z" in let E := fresh "E" in
        apply pbind_ok in H1; destruct H1 as [z [E H1]]
    end; injection H1 as <- _; now repeat split. }
  destruct S1 as [[A1 [A2 A3]] [A4 A5]].
  destruct (skip (T "]") (skip_space q4)) as [r|].
  - injection H as <- _. now repeat split.
  - destruct (skip_space (match skip (T ",") (skip_space q4) with Some r => r | None => skip_space q4 end))
      as [|a l]; [discriminate|].
    apply IH in H. destruct H as [[B1 [B2 B3]] [B4 B5]].
    split; [|split; congruence]. repeat split; congruence.
Qed.
Lemma parse_context_shape : forall it c c', parse_context regex_ok current_system it c = POk c' ->
  exists x, same_core (c_set_contexts (c_contexts c ++ [x]) c) c' /\
    cc_fall x = false /\ plain_stage x /\ cwf x /\ uniq x.
Proof.
  intros it c c' H. unfold parse_context in H. apply pbind_ok in H. destruct H as [[x q] [Hx H]].
  assert (P : cc_fall x = false /\ plain_stage x /\ cwf x /\ uniq x).
  { destruct (skip (T "default") (skip_space it)) as [r|].
    - destruct (skip (T "]") (skip_space r)) as [r'|]; [|discriminate]. injection Hx as <- _.
      split; [reflexivity|]. split; [intros _; repeat split|split; [now apply empty_cwf|reflexivity]].
    - destruct (skip (T "stage") (skip_space it)) as [r|].
      + destruct (skip (T "]") (skip_space r)) as [r'|]; [|discriminate]. injection Hx as <- _.
        split; [reflexivity|]. split; [intros _; repeat split|split; [now apply empty_cwf|reflexivity]].
      + apply read_ctx_attr in Hx. destruct Hx as [[A [B C]] [D E]]. split; [exact D|]. split.
        * intros F. rewrite E in F. discriminate.
        * split; [apply empty_cwf; [now rewrite A|now rewrite B|now rewrite C]|].
          unfold uniq, direct_outs. now rewrite A, B. }
  exists x. destruct (skip_space q); [|discriminate]. injection H as <-. split; [|exact P]. repeat split; auto.
Qed.

Lemma add_key_nz : forall k l, k <> 0 -> Forall (fun k : key => k <> 0) l ->
  Forall (fun k : key => k <> 0) (add_key k l).
Proof.
  intros k l Hk H. unfold add_key. destruct (mem_key k l); [exact H|]. apply Forall_app. auto.
Qed.
Lemma forward_list_nz : forall fuel l it acc r, Forall lk_ok l ->
  forward_list_loop fuel l it acc = POk r -> Forall (fun k : key => k <> 0) acc ->
  Forall (fun k : key => k <> 0) r.
Proof.
  induction fuel as [|f IH]; intros l it acc r L H A; [discriminate|]. cbn [forward_list_loop] in H.
  destruct it as [|a it]; [now injection H as <-|].
  destruct (read_ident (a :: it)) as [name q]. destruct name as [|b name]; [discriminate|].
  destruct (find_logical (b :: name) l) as [k|] eqn:E.
  - apply IH in H; auto. unfold find_logical in E. apply find_some in E. destruct E as [E _].
    rewrite Forall_forall in L. destruct (L k E) as [P [Q _]]. now apply add_key_nz, add_key_nz.
  - destruct (is_device_key (get_key_by_name (b :: name))) eqn:D; [|discriminate].
    apply IH in H; auto. apply add_key_nz; auto. intros Z. rewrite Z in D. discriminate.
Qed.

Section Lines.
Variable parse_lines : list text -> cstate -> pres cstate.
Hypothesis lines_ext : forall l c c', parse_lines l c = POk c' -> ext c c'.

Lemma parse_directive_ext : forall it c c',
  parse_directive typer regex_ok read_file parse_lines it c = POk c' -> ext c c'.
Proof.
  intros it c c' H. unfold parse_directive in H. destruct (negb (c_sysmatch c)).
  - injection H as <-. apply ext_refl.
  - destruct (read_ident it) as [ident q]. cbn zeta in H. apply pbind_ok in H.
    destruct H as [[c1 q1] [H1 H]].
    assert (X : ext c c1).
    { clear H. 
      match type of H1 with (if text_eqb ident (T "include") then _ else ?e) = _ =>
        destruct (text_eqb ident (T "include")) end.
      - apply pbind_ok in H1. destruct H1 as [z [_ H1]]. destruct (read_file (fst z)) as [ls|]; [|discriminate].
        apply pbind_ok in H1. destruct H1 as [c2 [H2 H1]]. injection H1 as <- _.
        apply lines_ext in H2. eapply ext_trans; [|exact H2]. core.
      - destruct (text_eqb ident (T "forward-modifiers")) eqn:F.
        + repeat match type of H1 with
          | (if ?b then pbind _ (fun l => POk (c_set_forward l c, [])) else _) = _ =>
              destruct b eqn:?; [|discriminate]
          | (if ?b then _ else _) = _ => destruct b eqn:?
          end; try discriminate;
          repeat match type of H1 with
          | pbind _ _ = POk _ => let z := fresh "z" in let E := fresh "E" in
              apply pbind_ok in H1; destruct H1 as [z [E H1]]
          end; try (injection H1 as <- _; core).
          injection H1 as <- _. split; [split; cbn; lia|]. intros _ [G1 G2 G3 G4 G5 G6 G7]. split; auto.
          cbn [c_forward c_set_forward]. intros w. eapply forward_list_nz; [|eassumption|constructor].
          apply logical_lk_ok, G2, w.
        + repeat match type of H1 with
          | (if ?b then _ else _) = _ => destruct b eqn:?
          end; try discriminate;
          repeat match type of H1 with
          | pbind _ _ = POk _ => let z := fresh "z" in let E := fresh "E" in
              apply pbind_ok in H1; destruct H1 as [z [E H1]]
          end; 
          repeat match type of H1 with
          | match ?l with [] => _ | _ :: _ => _ end = _ => destruct l
          | (if ?b then _ else _) = _ => destruct b eqn:?
          end; try discriminate; try (injection H1 as <- _; try core).
          destruct (fst z); core. }
    destruct (skip_space q1); [|discriminate]. injection H as <-. exact X.
Qed.

Lemma add_logical_facts : forall name a b c c2 both, add_logical_key name a b c = (c2, both) ->
  grows c c2 /\
  ((W -> bounded c2) -> Good c -> (W -> a <> 0) -> (W -> b <> 0) ->
   (W -> a < first_logical + N.of_nat (length (c_logical c))) ->
   (W -> b < first_logical + N.of_nat (length (c_logical c))) ->
   Good c2 /\ (W -> both <> 0 /\ both < first_logical + N.of_nat (length (c_logical c2)))).
Proof.
  intros name a b c c2 both H. unfold add_logical_key in H.
  set (m := (first_logical + N.of_nat (length (c_logical c))) mod 65536) in H.
  assert (Em : N.of_nat (length (c_logical c)) < 3328 -> m = first_logical + N.of_nat (length (c_logical c)))
    by (intros; apply N.mod_small; unfold first_logical; lia).
  assert (Ok : logical_ok (c_logical c) -> N.of_nat (length (c_logical c)) < 3328 -> a <> 0 -> b <> 0 ->
    a < first_logical + N.of_nat (length (c_logical c)) -> b < first_logical + N.of_nat (length (c_logical c)) ->
    logical_ok (c_logical c ++ [LK name m a b])) by (intros; now apply add_logical_ok).
  clearbody m. injection H as <- <-.
  assert (L : length (c_logical c ++ [LK name m a b]) = S (length (c_logical c)))
    by (rewrite app_length, Nat.add_comm; reflexivity).
  split; [split|]; cbn [c_actions c_logical c_set_logical]; [lia|rewrite L; lia|].
  intros Hb [G1 G2 G3 G4 G5 G6 G7] Ha Hc La Lb.
  assert (Hl : W -> N.of_nat (length (c_logical c)) < 3328).
  { intros w. destruct (Hb w) as [_ B]. cbn [c_logical c_set_logical] in B. rewrite L in B. lia. }
  split; [split|]; cbn [c_contexts c_actions c_logical c_forward c_commands c_set_logical]; auto.
  intros w. rewrite L, (Em (Hl w)). unfold first_logical. lia.
Qed.
Lemma logical_loop_ext : forall fuel name a it c c', logical_loop fuel name a it c = POk c' ->
  grows c c' /\ ((W -> bounded c') -> Good c -> (W -> a <> 0) ->
     (W -> a < first_logical + N.of_nat (length (c_logical c))) -> Good c').
Proof.
  induction fuel as [|f IH]; intros name a it c c' H; [discriminate|]. cbn [logical_loop] in H.
  destruct (read_ident (skip_space it)) as [i q]. apply pbind_ok in H. destruct H as [n [_ H]].
  destruct (cfg_key_by_name (c_logical c) n =? 0) eqn:R; [discriminate|]. apply N.eqb_neq in R.
  destruct (skip (T "|") (skip_space q)) as [r|].
  - destruct (add_logical_key (T "$") a (cfg_key_by_name (c_logical c) n) c) as [c2 both] eqn:Ea.
    apply add_logical_facts in Ea. destruct Ea as [[A1 A2] A3]. apply IH in H. destruct H as [[B1 B2] B3].
    split; [split; lia|]. intros Hb G Ha La.
    assert (Hb2 : W -> bounded c2) by (intros w; eapply grows_bounded; [|exact (Hb w)]; now split).
    destruct (A3 Hb2 G Ha (fun _ => R) La (fun w => cfg_key_lt _ _ (g_logical _ G w))) as [P Q].
    apply B3; auto; intros w; now apply Q.
  - destruct (add_logical_key name a (cfg_key_by_name (c_logical c) n) c) as [c2 both] eqn:Ea.
    apply add_logical_facts in Ea. destruct Ea as [A1 A3].
    destruct (skip_space (skip_space q)); [|discriminate]. injection H as <-.
    split; [exact A1|]. intros Hb G Ha La. now apply (A3 Hb G Ha (fun _ => R) La (fun w => cfg_key_lt _ _ (g_logical _ G w))).
Qed.
Lemma parse_logical_ext : forall name it c c',
  parse_logical_key_definition name it c = POk (Some c') -> ext c c'.
Proof.
  intros name it c c' H. unfold parse_logical_key_definition in H.
  destruct (negb _); [discriminate|]. destruct (read_ident it) as [i q].
  apply pbind_ok in H. destruct H as [n [_ H]].
  destruct (skip (T "|") (skip_space q)) as [r|]; [|discriminate].
  destruct (cfg_key_by_name (c_logical c) n =? 0) eqn:R; [discriminate|]. apply N.eqb_neq in R.
  apply pbind_ok in H. destruct H as [c1 [H E]]. injection E as <-. apply logical_loop_ext in H.
  destruct H as [A B]. split; [exact A|]. intros Hb G. apply B; auto. intros w. apply cfg_key_lt, (g_logical _ G w).
Qed.
Lemma parse_macro_ext : forall name it c c', parse_macro name it c = POk c' -> ext c c'.
Proof.
  intros name it c c' H. unfold parse_macro in H. apply pbind_ok in H. destruct H as [t [_ H]].
  destruct (_ || _); injection H as <-; core.
Qed.

Lemma parse_line_ext : forall line c c',
  parse_line typer regex_ok read_file current_system parse_lines line c = POk c' -> ext c c'.
Proof.
  intros line c c' H. unfold parse_line in H. destruct (read_ident (skip_space line)) as [ident q].
  destruct (skip (T "=") (skip_space q)) as [r|].
  - apply pbind_ok in H. destruct H as [[c1|] [H1 H]].
    + injection H as <-. now apply parse_logical_ext in H1.
    + now apply parse_macro_ext in H.
  - apply pbind_ok in H. destruct H as [t [_ H]]. cbn zeta in H.
    destruct (skip (T "@") (skip_space t)) as [r|]; [now apply parse_directive_ext in H|].
    destruct (skip (T "[") (skip_space t)) as [r|].
    + apply pbind_ok in H. destruct H as [c1 [H1 H]]. apply parse_context_shape in H1.
      destruct H1 as [x [[C1 [C2 [C3 [C4 [C5 C6]]]]] [F [Px [Wx Ux]]]]].
      cbn [c_contexts c_actions c_logical c_forward c_commands c_after_empty c_set_contexts] in *.
      rewrite C1, back_last in H.
      assert (E1 : Good c -> cgood W (c_contexts c ++ [x])).
      { intros [[N Wf Pl Ch] G2 G3 G4 G5 G6 G7]. split; [now destruct (c_contexts c)| | |].
        - intros w. apply Forall_app. auto.
        - apply Forall_app. auto.
        - now apply chain_snoc. }
      assert (First : Good c -> match c_contexts c ++ [x] with x :: _ => cc_stage x = true | [] => False end).
      { intros [_ _ _ _ _ G6 _]. destruct (c_contexts c); [contradiction|exact G6]. }
      assert (Gr : forall cc, c_actions cc = c_actions c1 -> c_logical cc = c_logical c1 -> grows c cc).
      { intros cc A B. split; [rewrite A, C2|rewrite B, C3]; lia. }
      assert (Un : Forall uniq (c_contexts c) -> Forall uniq (c_contexts c ++ [x])) by (intros U; apply Forall_app; auto).
      destruct (cc_stage x) eqn:Sx.
      * injection H as <-. split; [now apply Gr|]. intros _ G. pose proof (E1 G) as G1. pose proof (First G) as G6.
        destruct G as [_ G2 G3 G4 _ _ G7].
        split; cbn [c_contexts c_logical c_forward c_commands c_after_empty c_set_after_empty];
          rewrite ?C1, ?C3, ?C4, ?C5; auto; discriminate.
      * injection H as <-. destruct (c_after_empty c1) eqn:Ae.
        -- split; [now apply Gr|]. intros _ G. pose proof (E1 G) as [N Wf Pl Ch]. pose proof (First G) as G6.
           assert (Ne : c_contexts c <> []) by apply G. destruct G as [_ G2 G3 G4 G5 _ G7].
           destruct (two_last (c_contexts c) x Ne) as [a [y Ea]].
           assert (By : cc_stage y = false).
           { apply G5; [now apply C6|]. change [y; x] with ([y] ++ [x]) in Ea. rewrite app_assoc in Ea. apply app_inj_tail in Ea.
             destruct Ea as [-> _]. apply back_last. }
           split; cbn [c_contexts c_logical c_forward c_commands c_after_empty c_set_after_empty c_set_contexts];
             rewrite ?C1, ?C3, ?C4, ?C5; auto; rewrite Ea in *; rewrite update_last_but_one.
           ++ split.
              ** now destruct a.
              ** intros w. specialize (Wf w). apply Forall_app in Wf. destruct Wf as [W1 W2]. apply Forall_app. split; [exact W1|].
                 inversion_clear W2 as [|? ? Wy W3]. constructor; [|exact W3]. eapply same_cwf; [|exact Wy]. now repeat split.
              ** apply Forall_app in Pl. destruct Pl as [W1 W2]. apply Forall_app. split; [exact W1|].
                 inversion_clear W2 as [|? ? Wy W3]. constructor; [|exact W3]. intros Q. exfalso. cbn in Q. congruence.
              ** now apply chain_mark.
           ++ intros _ z Bz. change (a ++ [cc_set_fall true y; x]) with (a ++ [cc_set_fall true y] ++ [x]) in Bz.
              rewrite app_assoc, back_last in Bz. injection Bz as <-. exact Sx.
           ++ destruct a; [exact G6|exact G6].
           ++ apply Un in G7. apply Forall_app in G7. destruct G7 as [U1 U2]. apply Forall_app. split; [exact U1|].
              inversion_clear U2 as [|? ? Uy U3]. constructor; [exact Uy|exact U3].
        -- split; [now apply Gr|]. intros _ G. pose proof (E1 G) as G1. pose proof (First G) as G6.
           destruct G as [_ G2 G3 G4 G5 _ G7].
           split; cbn [c_contexts c_logical c_forward c_commands c_after_empty c_set_after_empty];
             rewrite ?C1, ?C3, ?C4, ?C5; auto. intros _ z Bz. rewrite back_last in Bz. injection Bz as <-. exact Sx.
    + apply mappings_loop_ext in H. eapply ext_trans; [|exact H]. core.
Qed.

Lemma lines_loop_ext : forall lines prev c c',
  lines_loop (parse_line typer regex_ok read_file current_system parse_lines) lines prev c = POk c' -> ext c c'.
Proof.
  induction lines as [|l r IH]; intros prev c c' H; cbn [lines_loop] in H.
  - injection H as <-. apply ext_refl.
  - destruct (c_done c); [injection H as <-; apply ext_refl|].
    assert (G : (do c <- parse_line typer regex_ok read_file current_system parse_lines (prev ++ l) c ;;
        lines_loop (parse_line typer regex_ok read_file current_system parse_lines) r [] c) = POk c' -> ext c c').
    { intros X. apply pbind_ok in X. destruct X as [c1 [H1 X]]. apply parse_line_ext in H1. apply IH in X.
      eapply ext_trans; eassumption. }
    destruct (back (trim_space l)) as [x|]; [|exact (G H)]. destruct (code x =? 92); [|exact (G H)].
    now apply IH in H.
Qed.
End Lines.

Theorem parse_file_ext : forall level lines c c',
  parse_file typer regex_ok read_file current_system level lines c = POk c' -> ext c c'.
Proof.
  induction level as [|n IH]; intros lines c c' H; cbn [parse_file] in H; apply lines_loop_ext in H; auto;
    discriminate.
Qed.

Lemma c_init_good : Good c_init.
Proof.
  split.
  - split; cbn; try discriminate.
    + intros _. constructor; [|constructor]. now apply empty_cwf.
    + constructor; [|constructor]. intros _. repeat split.
    + split; [discriminate|exact I].
  - intros _. split; [cbn; lia|]. intros i k Hi.
    destruct i as [|[|[|[|i]]]]; [| | | |now destruct i]; injection Hi as <-; vm_compute; repeat split; discriminate.
  - intros _. constructor.
  - constructor.
  - discriminate.
  - reflexivity.
  - now constructor.
Qed.

(** The configuration sent to the server is in shape. *)
Theorem finish_good : forall c cfg, Good c -> finish_config c = POk cfg -> cgood W (cfg_contexts cfg).
Proof.
  intros c cfg [G1 G2 G3 G4 G5 G6 G7] H. unfold finish_config in H. destruct (_ && _); [discriminate|].
  injection H as <-. cbn [cfg_contexts]. apply suppress_good; [exact G3|].
  apply replace_all_good; [intros w; apply Forall_rev; apply logical_lk_ok, G2, w|].
  apply optimize_good. now apply prepend_forward_good.
Qed.
Theorem loaded_good : forall t c cfg,
  parse_file typer regex_ok read_file current_system 10 (split_lines t []) c_init = POk c ->
  (W -> bounded c) -> finish_config c = POk cfg -> cgood W (cfg_contexts cfg).
Proof.
  intros t c cfg H Hb F. apply parse_file_ext in H. apply (finish_good c); [|exact F].
  apply H; [exact Hb|exact c_init_good].
Qed.
End Parse.
End Weak.
