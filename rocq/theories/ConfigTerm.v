(** Loading a configuration ends when no line begins with `=`. *)
From Coq Require Import String Ascii List Arith NArith ZArith Bool Lia.
From Verif Require Import Base Key Text TextSpec TextProofs Match ParseSeq ParseProofs ParseInput Stage Config
  MacroSpec MacroTokens MacroProofs.
Import ListNotations.
Local Open Scope nat_scope.

(** No logical key without a name *)
Definition named (c : cstate) : Prop := Forall (fun k => lk_name k <> []) (c_logical c).

Lemma no_empty_key : forall l, Forall (fun k => lk_name k <> []) l -> cfg_key_by_name l [] = 0%N.
Proof.
  intros l H. unfold cfg_key_by_name. change (get_key_by_name []) with 0%N. cbn iota.
  destruct (find_logical [] l) as [k|] eqn:F; [|reflexivity].
  apply find_some in F. destruct F as [Hk E]. rewrite Forall_forall in H. specialize (H k Hk).
  destruct (lk_name k); [easy|discriminate].
Qed.

Section Parse.
Variable typer : option (key * bool) -> text -> list stroke.
Variable regex_ok : text -> bool -> bool.
Variable read_file : text -> option (list text).
Variable current_system : text.

(** No line of the files begins with `=`. *)
Definition named_line (l : text) : Prop :=
  match skip_space l with c :: _ => c <> "="%char | [] => True end.
Hypothesis named_files : forall f lines, read_file f = Some lines ->
  Forall named_line (skip_bom lines).

Lemma guard_ends : forall b, ends (guard b).
Proof. now intros []. Qed.
Lemma check_regex_ends : forall t, ends (check_regex regex_ok t).
Proof.
  intros [|c r]; [exact I|]. unfold check_regex. destruct (rev r) as [|d q]; [exact I|].
  destruct (Ascii.eqb d "i"); [|apply guard_ends]. destruct q; [exact I|apply guard_ends].
Qed.
Lemma read_filter_string_ends : forall m it, ends (read_filter_string m it).
Proof.
  intros m it. unfold read_filter_string. apply sres_bind. intros [q|] _; [exact I|].
  apply sres_bind. intros [q|] _; [exact I|]. destruct (read_ident it) as [i q].
  apply ends_bind; [apply preprocess_ends|]. intros t _. destruct t as [|c r]; [exact I|].
  destruct (rev (c :: r)) as [|d x]; [exact I|]. destruct (is_quote c); [|exact I].
  destruct r; [exact I|]. now destruct (Ascii.eqb c d).
Qed.
Lemma read_filter_ends : forall m b it, ends (read_filter regex_ok m b it).
Proof.
  intros m b it. unfold read_filter. apply ends_bind; [apply read_filter_string_ends|].
  intros [s q] _. destruct s as [|c s]; [exact I|]. destruct (is_regex (c :: s)); [|exact I].
  apply ends_bind; [apply check_regex_ends|intros; exact I].
Qed.

Lemma modifier_ends : forall l t, Forall (fun k => lk_name k <> []) l ->
  ends (parse_modifier_list l t).
Proof.
  intros l t H. unfold parse_modifier_list. generalize (@nil event) as acc.
  assert (K : forall f it acc, length it < f -> ends (modifier_loop f l it acc)).
  { induction f as [|f IH]; intros it acc L; [lia|]. cbn [modifier_loop].
    pose proof (suffix_length _ _ (skip_space_suffix it)) as S.
    destruct (skip_space it) as [|c r] eqn:E; [exact I|]. rewrite <- E in *.
    assert (X : exists b r', match skip (T "!") (skip_space it) with
                             | Some q => (true, q) | None => (false, skip_space it) end = (b, r')
                             /\ length r' <= length it).
    { destruct (skip (T "!") (skip_space it)) as [q|] eqn:F; [exists true, q|exists false, (skip_space it)];
        (split; [reflexivity|]); [|exact S]. apply skip_suffix, suffix_length in F. lia. }
    destruct X as [b [r' [X Y]]]. rewrite X. destruct (read_ident r') as [name q] eqn:R.
    destruct name as [|n0 name].
    - rewrite no_empty_key by exact H. exact I.
    - destruct ((_ =? _)%N || _); [exact I|]. apply IH. apply read_ident_later, later_length in R. lia. }
  intros acc. apply K. lia.
Qed.

Lemma forward_ends : forall l t acc, ends (forward_list_loop (S (length t)) l t acc).
Proof.
  intros l t.
  assert (K : forall f it acc, length it < f -> ends (forward_list_loop f l it acc)).
  { induction f as [|f IH]; intros it acc L; [lia|]. cbn [forward_list_loop].
    destruct it as [|c r]; [exact I|]. destruct (read_ident (c :: r)) as [name q] eqn:R.
    destruct name as [|n0 name]; [exact I|].
    apply read_ident_later, later_length in R.
    pose proof (suffix_length _ _ (skip_space_suffix q)) as S.
    destruct (find_logical _ l); [apply IH; lia|].
    destruct (is_device_key _); [apply IH; lia|exact I]. }
  intros acc. apply K. lia.
Qed.

Lemma parse_sequence_ends : forall inp gk ty ck t, ends (parse_sequence inp gk ty ck t).
Proof.
  intros inp gk ty ck t. pose proof (sequence_total inp gk ty ck t) as H.
  destruct (parse_sequence inp gk ty ck t); [exact I|exact I|exact I|].
  exact H.
Qed.
Lemma parse_input_ends : forall c t, ends (parse_input typer c t).
Proof.
  intros c t. unfold parse_input. apply ends_bind; [apply parse_sequence_ends|intros; exact I].
Qed.
Lemma parse_output_named : forall c t, named c ->
  post (fun x => named (fst x)) (parse_output typer c t).
Proof.
  intros c t H. unfold parse_output. apply ends_bind; [apply parse_sequence_ends|].
  intros [sq cmds] _. destruct (contains_key sq k_ContextActive); [exact I|]. exact H.
Qed.

Lemma add_command_named : forall i name c, named c -> named (add_command i name c).
Proof. intros i name c H. unfold add_command. now destruct (find_named name c). Qed.
Lemma add_command_mapping_named : forall name o c, named c ->
  post named (add_command_mapping name o c).
Proof.
  intros name o c H. unfold add_command_mapping. destruct (find_named name c); [|exact I].
  destruct (existsb _ _); [exact I|]. exact H.
Qed.

Lemma parse_command_and_mapping_named : forall i o c, named c ->
  post named (parse_command_and_mapping typer i o c).
Proof.
  intros i o c H. unfold parse_command_and_mapping. apply ends_bind; [apply parse_input_ends|].
  intros x _. destruct (parse_command_name c o) as [|a b].
  - eapply post_bind; [apply parse_output_named; exact H|]. intros [c' o'] H'. exact H'.
  - now apply add_command_named.
Qed.

Lemma parse_mapping_named : forall t c, named c -> post named (parse_mapping typer t c).
Proof.
  intros t c H. unfold parse_mapping. destruct (read_ident t) as [ident q].
  assert (X : post named match skip_until (T ">>") (skip_space q) with
       | Some r => parse_command_and_mapping typer (removelast (removelast (before t r))) r c
       | None => PErr end).
  { destruct (skip_until _ _); [now apply parse_command_and_mapping_named|exact I]. }
  destruct ident as [|i0 ident]; [exact X|].
  destruct (skip (T ">>") (skip_space q)) as [r|]; [|exact X]. clear X.
  destruct (find_named _ c).
  - eapply post_bind; [apply parse_output_named; exact H|]. intros [c' o'] H'.
    now apply add_command_mapping_named.
  - destruct (starts_with_lower_case _); [|now apply parse_command_and_mapping_named].
    destruct (c_unmapped c); [|exact I].
    eapply post_bind; [apply parse_output_named; exact H|]. intros x H'. exact H'.
Qed.

Lemma mappings_named : forall it c, named c -> post named (mappings_loop typer (S (length it)) it c).
Proof.
  assert (K : forall f it c, length it < f -> named c -> post named (mappings_loop typer f it c)).
  { induction f as [|f IH]; intros it c L H; [lia|]. cbn [mappings_loop].
    destruct it as [|x r]; [exact H|]. apply sres_bind. intros o F.
    eapply post_bind; [apply parse_mapping_named; exact H|]. intros c' H'.
    apply IH; [|exact H']. destruct o as [q|]; [|cbn in *; lia].
    apply nis_later in F; [|discriminate]. apply later_length in F. lia. }
  intros it c H. apply K; [lia|exact H].
Qed.

Lemma read_value_suffix : forall it v q, read_value it = SOk (v, q) -> suffix q it.
Proof.
  intros it v q H. unfold read_value in H. destruct it as [|c r].
  - injection H as <- <-. apply suffix_refl.
  - destruct (is_quote c).
    + destruct (skip_until [c] r) as [x|] eqn:F; [|discriminate]. injection H as <- <-.
      apply suffix_cons. eapply skip_until_suffix; eassumption.
    + injection H as H. eapply read_ident_suffix; eassumption.
Qed.

Lemma read_filter_string_suffix : forall m it s q, read_filter_string m it = POk (s, q) ->
  suffix q it.
Proof.
  intros m it s q H. unfold read_filter_string in H.
  destruct (skip_regular_expression it) as [[x|]|] eqn:F; [| |discriminate]; cbn [of_sres pbind] in H.
  { injection H as <- <-. now apply later_suffix, skip_regex_later. }
  destruct (skip_string it) as [[x|]|] eqn:G; [| |discriminate]; cbn [of_sres pbind] in H.
  { injection H as <- <-. now apply later_suffix, skip_string_later. }
  destruct (read_ident it) as [i x] eqn:R. apply read_ident_suffix in R.
  destruct (preprocess m i) as [t| | |]; try discriminate. cbn [pbind] in H.
  destruct t as [|c r]; [now injection H as <- <-|].
  destruct (rev (c :: r)) as [|d y]; [now injection H as <- <-|].
  destruct (is_quote c); [|now injection H as <- <-]. destruct r; [discriminate|].
  destruct (Ascii.eqb c d); [now injection H as <- <-|discriminate].
Qed.
Lemma read_filter_post : forall m b it,
  post (fun z => suffix (snd z) it) (read_filter regex_ok m b it).
Proof.
  intros m b it. unfold read_filter.
  pose proof (read_filter_string_ends m it) as E.
  pose proof (read_filter_string_suffix m it) as S.
  destruct (read_filter_string m it) as [[s q]| | |]; try exact I; [|elim E].
  specialize (S s q eq_refl). cbn [pbind]. destruct s as [|c s]; [exact I|].
  destruct (is_regex (c :: s)); [|exact S].
  apply ends_bind; [apply check_regex_ends|]. intros ? _. exact S.
Qed.

Lemma attributes_ends : forall c it x, named c ->
  ends (attributes_loop regex_ok current_system (S (length it)) c it x).
Proof.
  assert (K : forall f c it x, length it < f -> named c ->
              ends (attributes_loop regex_ok current_system f c it x)).
  { induction f as [|f IH]; intros c it x L H; [lia|]. cbn [attributes_loop].
    destruct (read_ident it) as [attrib q] eqn:R. destruct attrib as [|a0 attrib]; [exact I|].
    apply read_ident_later, later_length in R.
    pose proof (suffix_length _ _ (skip_space_suffix q)) as S1.
    assert (X : exists b r', match skip (T "!") (skip_space q) with
                             | Some r => (true, r) | None => (false, skip_space q) end = (b, r')
                             /\ length r' <= length q).
    { destruct (skip (T "!") (skip_space q)) as [y|] eqn:F; [exists true, y|exists false, (skip_space q)];
        (split; [reflexivity|]); [|exact S1]. apply skip_suffix, suffix_length in F. lia. }
    destruct X as [inv [r' [X Y]]]. rewrite X.
    destruct (skip (T "=") r') as [r1|] eqn:E; [|exact I]. apply skip_suffix, suffix_length in E.
    pose proof (suffix_length _ _ (skip_space_suffix r1)) as S2.
    assert (B : forall g : filter * text -> cctx * text, (forall z, snd (g z) = snd z) ->
      post (fun y => suffix (snd y) (skip_space r1))
       (do z <- read_filter regex_ok (c_macros c) inv (skip_space r1);; POk (g z))).
    { intros g G. eapply post_bind; [apply read_filter_post|]. intros z Z. cbn. now rewrite G. }
    eapply post_bind with (P := fun y => suffix (snd y) (skip_space r1)).
    - destruct (text_eqb _ (T "class")); [now apply (B (fun z => (_, snd z)))|].
      destruct (text_eqb _ (T "title")); [now apply (B (fun z => (_, snd z)))|].
      destruct (text_eqb _ (T "path")); [now apply (B (fun z => (_, snd z)))|].
      destruct (text_eqb _ (T "system")).
      { apply sres_bind. intros [v y] F. apply read_value_suffix in F. exact F. }
      destruct (text_eqb _ (T "device")); [now apply (B (fun z => (_, snd z)))|].
      destruct (text_in _ _); [now apply (B (fun z => (_, snd z)))|].
      destruct (text_eqb _ (T "modifier")); [|exact I].
      apply sres_bind. intros [v y] F. apply read_value_suffix in F.
      apply ends_bind; [apply preprocess_ends|]. intros t _.
      apply ends_bind; [now apply modifier_ends|]. intros l _. exact F.
    - intros [x' y] P. cbn [snd] in P. apply suffix_length in P.
      pose proof (suffix_length _ _ (skip_space_suffix y)) as S3.
      destruct (skip (T "]") (skip_space y)); [exact I|].
      assert (W : forall z, length z <= length y ->
                  ends (match skip_space z with
                        | [] => PErr
                        | q0 => attributes_loop regex_ok current_system f c q0 x'
                        end)).
      { intros z Z. pose proof (suffix_length _ _ (skip_space_suffix z)) as S4.
        destruct (skip_space z) as [|c0 z0]; [exact I|]. apply IH; [lia|exact H]. }
      destruct (skip (T ",") (skip_space y)) as [z|] eqn:F; [|now apply W].
      apply W. apply skip_suffix, suffix_length in F. lia. }
  intros c it x H. apply K; [lia|exact H].
Qed.

Lemma parse_context_named : forall it c, named c ->
  post named (parse_context regex_ok current_system it c).
Proof.
  intros it c H. unfold parse_context. apply ends_bind.
  - destruct (skip (T "default") _) as [q|].
    + now destruct (skip (T "]") (skip_space q)).
    + destruct (skip (T "stage") _) as [q|].
      * now destruct (skip (T "]") (skip_space q)).
      * now apply attributes_ends.
  - intros [x q] _. destruct (skip_space q); [exact H|exact I].
Qed.

Section Lines.
Variable parse_lines : list text -> cstate -> pres cstate.
Hypothesis lines_ok : forall l c, Forall named_line (skip_bom l) -> named c ->
  post named (parse_lines l c).

Lemma optional_bool_ends : forall it, ends (read_optional_bool it).
Proof.
  intros it. unfold read_optional_bool. destruct (read_ident it) as [v q].
  destruct (_ || _); [exact I|]. now destruct (text_eqb v (T "false")).
Qed.

Lemma directive_named : forall it c, named c ->
  post named (parse_directive typer regex_ok read_file parse_lines it c).
Proof.
  intros it c H. unfold parse_directive. destruct (negb (c_sysmatch c)); [exact H|].
  destruct (read_ident it) as [ident q].
  eapply post_bind with (P := fun y => named (fst y)).
  2:{ intros [c' q'] H'. destruct (skip_space q'); [exact H'|exact I]. }
  assert (G : forall a b, post (fun y : cstate * text => named (fst y))
     (do z <- read_filter regex_ok (c_macros c) a (skip_space q);;
      POk (c_set_grab (c_grab c ++ [(fst z, b)]) c, snd z))).
  { intros a b. apply ends_bind; [apply read_filter_ends|]. intros z _. exact H. }
  destruct (text_eqb ident (T "include")).
  { apply sres_bind. intros [f y] _. cbn [fst snd].
    destruct (read_file f) as [ls|] eqn:F; [|exact I].
    eapply post_bind; [apply lines_ok; [eapply named_files; eassumption|exact H]|].
    intros c' H'. exact H'. }
  destruct (text_eqb ident (T "grab-device")); [apply G|].
  destruct (text_eqb ident (T "skip-device")); [apply G|].
  destruct (text_eqb ident (T "grab-device-id")); [apply G|].
  destruct (text_eqb ident (T "skip-device-id")); [apply G|].
  destruct (text_eqb ident (T "enforce-lowercase-commands")).
  { apply ends_bind; [apply optional_bool_ends|]. intros z _. exact H. }
  destruct (text_eqb ident (T "allow-unmapped-commands")).
  { apply ends_bind; [apply optional_bool_ends|]. intros z _. exact H. }
  destruct (text_eqb ident (T "forward-modifiers")).
  { apply ends_bind; [apply forward_ends|]. intros z _. exact H. }
  destruct (text_eqb ident (T "done")); [exact H|].
  destruct (text_eqb ident (T "compose-key")).
  { apply ends_bind; [apply parse_input_ends|]. intros l _.
    destruct l as [|a [|b [|d [|e [|? ?]]]]]; try exact I.
    - destruct (negb _); [exact H|exact I].
    - destruct (_ =? _)%N; [exact H|exact I]. }
  destruct (text_in ident _).
  { apply ends_bind; [apply optional_bool_ends|]. intros z _. cbn [post fst].
    now destruct (fst z). }
  destruct (text_eqb ident (T "options")); [|exact I].
  destruct (forallb _ _); [exact H|exact I].
Qed.

Lemma logical_named : forall name left it c, name <> [] -> named c ->
  post named (logical_loop (S (length it)) name left it c).
Proof.
  assert (K : forall f name left it c, length it < f -> name <> [] -> named c ->
              post named (logical_loop f name left it c)).
  { induction f as [|f IH]; intros name left it c L N H; [lia|]. cbn [logical_loop].
    destruct (read_ident (skip_space it)) as [i q] eqn:R.
    apply read_ident_suffix, suffix_length in R.
    pose proof (suffix_length _ _ (skip_space_suffix it)) as S1.
    pose proof (suffix_length _ _ (skip_space_suffix q)) as S2.
    apply ends_bind; [apply preprocess_ends|]. intros n _. destruct (_ =? 0)%N; [exact I|].
    destruct (skip (T "|") (skip_space q)) as [r|] eqn:F.
    - apply skip_later, later_length in F; [|discriminate]. cbn [add_logical_key].
      apply IH; [lia|exact N|]. apply Forall_app. split; [exact H|].
      constructor; [discriminate|constructor].
    - cbn [add_logical_key]. destruct (skip_space (skip_space q)); [|exact I].
      apply Forall_app. split; [exact H|]. constructor; [exact N|constructor]. }
  intros name left it c N H. apply K; [lia|exact N|exact H].
Qed.

Lemma logical_def_named : forall name it c, name <> [] -> named c ->
  post (fun o => match o with Some c' => named c' | None => True end)
       (parse_logical_key_definition name it c).
Proof.
  intros name it c N H. unfold parse_logical_key_definition.
  destruct (negb _); [exact I|]. destruct (read_ident it) as [i q].
  apply ends_bind; [apply preprocess_ends|]. intros n _.
  destruct (skip (T "|") (skip_space q)) as [r|]; [|exact I].
  destruct (_ =? 0)%N; [exact I|]. eapply post_bind; [apply logical_named; assumption|].
  intros c' H'. exact H'.
Qed.

Lemma parse_macro_named : forall name it c, named c -> post named (parse_macro name it c).
Proof.
  intros name it c H. unfold parse_macro.
  apply ends_bind; [apply preprocess_range_ends; intros; apply preprocess_ends|].
  intros t _. destruct (_ || _); exact H.
Qed.

Lemma parse_line_named : forall l c, named_line l -> named c ->
  post named (parse_line typer regex_ok read_file current_system parse_lines l c).
Proof.
  intros l c N H. unfold parse_line. destruct (read_ident (skip_space l)) as [ident q] eqn:R.
  destruct (skip (T "=") (skip_space q)) as [r|] eqn:F.
  - assert (NE : ident <> []).
    { intros ->. pose proof (read_ident_app _ _ _ R) as A. cbn [app] in A. subst q.
      unfold named_line in N. destruct (skip_space l) as [|c0 l0] eqn:E; [discriminate|].
      assert (Z : skip_space (c0 :: l0) = c0 :: l0).
      { clear - E. revert c0 l0 E. induction l as [|d l IH]; intros c0 l0 E; [discriminate|].
        cbn [skip_space] in E. destruct (is_space d) eqn:S; [now apply IH|].
        destruct (is_comment_char d) eqn:C; [discriminate|]. injection E as <- <-.
        cbn [skip_space]. now rewrite S, C. }
      rewrite Z in F. apply skip_app in F. injection F as -> _. now apply N. }
    eapply post_bind; [apply logical_def_named; assumption|]. intros [c'|] H'; [exact H'|].
    now apply parse_macro_named.
  - apply ends_bind; [apply preprocess_ends|]. intros t _.
    destruct (skip (T "@") (skip_space t)); [now apply directive_named|].
    destruct (skip (T "[") (skip_space t)).
    + eapply post_bind; [apply parse_context_named; exact H|]. intros c' H'.
      destruct (back (c_contexts c')) as [x|]; [|exact H']. destruct (cc_stage x); [exact H'|].
      destruct (c_after_empty c'); exact H'.
    + now apply mappings_named.
Qed.
End Lines.

(** A continued line begins like one of its parts. *)
Lemma named_join : forall a b, named_line a -> named_line b -> named_line (a ++ b).
Proof.
  unfold named_line. induction a as [|c a IH]; intros b H K; [exact K|].
  cbn [app skip_space] in *. destruct (is_space c); [now apply IH|].
  now destruct (is_comment_char c).
Qed.
Lemma skip_space_cut : forall a b, named_line (a ++ b) -> named_line a.
Proof.
  unfold named_line. induction a as [|c a IH]; intros b H; [exact I|].
  cbn [app skip_space] in *. destruct (is_space c); [now apply (IH b)|].
  now destruct (is_comment_char c).
Qed.

Lemma trim_space_prefix : forall l, exists b, l = trim_space l ++ b.
Proof.
  intros l. unfold trim_space.
  assert (X : forall t, exists a, t = a ++ drop_space t).
  { induction t as [|c t [a IH]]; [now exists []|]. cbn [drop_space]. destruct (is_space c).
    - exists (c :: a). cbn. now rewrite <- IH.
    - now exists []. }
  destruct (X (rev l)) as [a A]. exists (rev a). rewrite <- (rev_involutive l) at 1.
  rewrite A at 1. now rewrite rev_app_distr.
Qed.

Lemma lines_named : forall pl, (forall l c, named_line l -> named c -> post named (pl l c)) ->
  forall lines prev c, Forall named_line lines -> named_line prev -> named c ->
  post named (lines_loop pl lines prev c).
Proof.
  intros pl P. induction lines as [|l lines IH]; intros prev c F N H; [exact H|].
  inversion_clear F as [|? ? Hl F']. cbn [lines_loop]. destruct (c_done c); [exact H|].
  assert (X : post named (do c0 <- pl (prev ++ l) c;; lines_loop pl lines [] c0)).
  { eapply post_bind; [apply P; [now apply named_join|exact H]|]. intros c' H'.
    apply IH; [exact F'|exact I|exact H']. }
  destruct (back (trim_space l)) as [x|] eqn:B; [|exact X].
  destruct (code x =? 92)%N; [|exact X]. apply IH; [exact F'| |exact H].
  apply named_join; [exact N|]. destruct (trim_space_prefix l) as [b Eb].
  apply skip_space_cut with (x :: b). rewrite Eb in Hl.
  destruct (trim_space l) as [|y t _] using rev_ind; [discriminate|].
  rewrite back_last in B. injection B as ->. unfold pop_back. rewrite removelast_last.
  now rewrite <- app_assoc in Hl.
Qed.

Theorem parse_file_named : forall level lines c, Forall named_line (skip_bom lines) -> named c ->
  post named (parse_file typer regex_ok read_file current_system level lines c).
Proof.
  induction level as [|level IH]; intros lines c F H; cbn [parse_file];
    (apply lines_named; [|exact F|exact I|exact H]); intros l c' N H';
    (apply parse_line_named; [|exact N|exact H']).
  - intros; exact I.
  - exact IH.
Qed.

Theorem parse_config_ends : forall t, Forall named_line (skip_bom (split_lines t [])) ->
  ends (parse_config typer regex_ok read_file current_system t).
Proof.
  intros t F. unfold parse_config. eapply post_bind.
  - apply parse_file_named; [exact F|]. repeat (constructor; [discriminate|]). constructor.
  - intros c _. unfold finish_config. now destruct (_ && _).
Qed.
End Parse.
