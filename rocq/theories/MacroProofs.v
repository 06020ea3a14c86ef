(** Macro expansion ends: no loop runs out of fuel. *)
From Coq Require Import String Ascii List Arith NArith ZArith Bool Lia.
From Verif Require Import Base Text TextSpec TextProofs ParseSeq Config MacroSpec MacroTokens.
Import ListNotations.
Local Open Scope nat_scope.

(** The result is not out of fuel, and has the property if there is a value. *)
Definition post {A} (P : A -> Prop) (r : pres A) : Prop :=
  match r with POk a => P a | PErr => True | PUB => True | PFuel => False end.
Definition ends {A} (r : pres A) : Prop := post (fun _ => True) r.

Lemma post_bind : forall A B (P : A -> Prop) (Q : B -> Prop) m f,
  post P m -> (forall a, P a -> post Q (f a)) -> post Q (pbind m f).
Proof. intros A B P Q [a| | |] f H K; cbn in *; auto. Qed.
Lemma ends_bind : forall A B (Q : B -> Prop) (m : pres A) f,
  ends m -> (forall a, m = POk a -> post Q (f a)) -> post Q (pbind m f).
Proof. intros A B Q [a| | |] f H K; cbn in *; auto. Qed.
Lemma post_impl : forall A (P Q : A -> Prop) r, (forall a, P a -> Q a) -> post P r -> post Q r.
Proof. intros A P Q [a| | |] H K; cbn in *; auto. Qed.
Lemma sres_ends : forall A (r : sres A), ends (of_sres r).
Proof. intros A [a|]; exact I. Qed.
Lemma sres_bind : forall A B (Q : B -> Prop) (m : sres A) f,
  (forall a, m = SOk a -> post Q (f a)) -> post Q (pbind (of_sres m) f).
Proof. intros A B Q [a|] f H; [now apply H|exact I]. Qed.

(** * Positions only move forward *)

Lemma nis_later : forall p it q, p <> [] -> skip_until_not_in_string p it = SOk (Some q) ->
  later q it.
Proof.
  intros p it. remember (length it) as n eqn:L. revert it L.
  induction n as [n IH] using lt_wf_ind. intros it L q N H. rewrite nis_eq in H.
  destruct (nis_next it) as [x|] eqn:F; [|discriminate]. apply nis_next_suffix in F.
  destruct (skip p x) as [y|] eqn:G.
  - injection H as <-. apply skip_later in G; [|exact N]. now apply later_trans with x.
  - destruct x as [|c r]; [discriminate|].
    assert (M : length r < n) by (apply suffix_length in F; cbn in F; lia).
    specialize (IH _ M r eq_refl q N H). apply later_trans with r; [exact IH|].
    apply suffix_trans with (c :: r); [|exact F]. apply suffix_cons, suffix_refl.
Qed.

Lemma skip_arglist_later : forall it q, skip_arglist it = SOk (Some q) -> later q it.
Proof.
  intros it q H. apply skip_arglist_sound in H. destruct H as [l [-> _]].
  exists ("["%char :: render l). split; [discriminate|reflexivity].
Qed.

Lemma skip_arglists_suffix : forall it q, skip_arglists it = SOk q -> suffix q it.
Proof.
  intros it. unfold skip_arglists. generalize (length it) at 1. intros n. revert it.
  induction n as [|n IH]; intros it q H; cbn [skip_arglists_fuel] in H.
  - injection H as <-. apply suffix_refl.
  - destruct (skip_arglist it) as [[r|]|] eqn:F; [| |discriminate].
    + apply IH in H. apply suffix_trans with r; [exact H|].
      now apply later_suffix, skip_arglist_later.
    + injection H as <-. apply suffix_refl.
Qed.

(** The loop over argument lists has enough fuel: it stops where no list follows. *)
Lemma skip_arglists_stop : forall it q, skip_arglists it = SOk q -> skip_arglist q = SOk None.
Proof.
  intros it. unfold skip_arglists. assert (M : length it <= length it) by lia. revert M.
  generalize (length it) at 2 3. intros n. revert it.
  induction n as [|n IH]; intros it L q H; cbn [skip_arglists_fuel] in H.
  - injection H as <-. now destruct it.
  - destruct (skip_arglist it) as [[r|]|] eqn:F; [| |discriminate].
    + apply (IH r); [|exact H]. apply skip_arglist_later, later_length in F. lia.
    + injection H as <-. exact F.
Qed.

Lemma skip_string_later : forall it q, skip_string it = SOk (Some q) -> later q it.
Proof.
  intros [|c r] q H; [discriminate|]. cbn in H. destruct (is_quote c); [|discriminate].
  destruct (skip_until [c] r) as [x|] eqn:F; [|discriminate]. injection H as <-.
  apply later_cons. eapply skip_until_suffix; eassumption.
Qed.
Lemma regex_suffix : forall it b q, regex_loop b it = SOk q -> suffix q it.
Proof.
  induction it as [|c r IH]; intros b q H; [discriminate|].
  assert (E : regex_loop b (c :: r) =
              if (code c =? 47)%N then
                if b then regex_loop false r
                else SOk (match skip (T "i") r with Some q => q | None => r end)
              else if (code c =? 92)%N then regex_loop (negb b) r else regex_loop false r)
    by reflexivity.
  rewrite E in H. clear E.
  destruct (code c =? 47)%N.
  - destruct b; [apply suffix_cons; eapply IH; eassumption|].
    destruct (skip (T "i") r) as [x|] eqn:F; injection H as <-.
    + apply suffix_cons. exact (skip_suffix _ _ _ F).
    + apply suffix_cons, suffix_refl.
  - destruct (code c =? 92)%N; apply suffix_cons; eapply IH; eassumption.
Qed.
Lemma skip_regex_later : forall it q, skip_regular_expression it = SOk (Some q) -> later q it.
Proof.
  intros it q H. unfold skip_regular_expression in H.
  destruct (skip (T "/") it) as [r|] eqn:F; [|discriminate].
  destruct (regex_loop false r) as [x|] eqn:G; [|discriminate]. injection H as <-.
  apply regex_suffix in G. apply skip_later in F; [|discriminate].
  now apply later_trans2 with r.
Qed.
Lemma skip_terminal_later : forall it q, skip_terminal_command it = SOk (Some q) -> later q it.
Proof.
  intros it q H. unfold skip_terminal_command in H.
  destruct (skip (T "$(") it) as [r|] eqn:F; [|discriminate].
  destruct (skip_until_not_in_string (T ")") r) as [[x|]|] eqn:G; [|discriminate|discriminate].
  injection H as <-. apply nis_later in G; [|discriminate].
  apply skip_later in F; [|discriminate]. apply later_trans2 with r; [now apply later_suffix|exact F].
Qed.

(** * The loops *)

Lemma substitute_ends : forall args t, ends (substitute_arguments t args).
Proof.
  intros args t. unfold substitute_arguments.
  assert (K : forall f it, length it < f -> ends (substitute_loop f args it)).
  { induction f as [|f IH]; intros it L; [lia|]. cbn [substitute_loop].
    destruct it as [|c it]; [exact I|]. remember (c :: it) as full eqn:E.
    destruct (skip_until (T "$") full) as [r|] eqn:F; [|exact I].
    apply skip_until_later in F; [|discriminate].
    destruct (try_read_number r) as [[[n ub] q]|] eqn:G.
    - destruct ub; [exact I|]. apply try_read_number_later in G.
      apply ends_bind; [|intros; exact I]. apply IH.
      apply later_length in F. apply later_length in G. lia.
    - destruct (skip (T "$") r) as [q|] eqn:G'.
      + apply ends_bind; [|intros; exact I]. apply IH. apply skip_suffix, suffix_length in G'.
        apply later_length in F. lia.
      + apply ends_bind; [|intros; exact I]. apply IH. apply later_length in F. lia. }
  apply K. lia.
Qed.

Lemma variable_ends : forall t, ends (contains_variable t).
Proof.
  intros t. unfold contains_variable.
  assert (K : forall f it, length it < f -> ends (variable_loop f it)).
  { induction f as [|f IH]; intros it L; [lia|]. cbn [variable_loop].
    apply sres_bind. intros [r|] F; [|exact I]. apply nis_later in F; [|discriminate].
    destruct (read_ident r) as [i q] eqn:G. destruct (parse_int i); [exact I|].
    apply IH. apply read_ident_suffix, suffix_length in G. apply later_length in F. lia. }
  apply K. lia.
Qed.

Lemma formal_ends : forall t, post (fun z => 0 <= z)%Z (get_formal_argument_count t).
Proof.
  intros t. unfold get_formal_argument_count.
  assert (K : forall f it m, length it < f -> (0 <= m)%Z ->
              post (fun z => 0 <= z)%Z (formal_loop f it m)).
  { induction f as [|f IH]; intros it m L M; [lia|]. cbn [formal_loop].
    destruct (skip_until (T "$") it) as [r|] eqn:F; [|exact M].
    apply skip_until_later in F; [|discriminate]. apply later_length in F.
    destruct (try_read_number r) as [[[n ub] q]|] eqn:G.
    - destruct (ub || _); [exact I|]. apply try_read_number_later, later_length in G.
      apply IH; [|]; lia.
    - apply IH; [|exact M]. lia. }
  apply K; lia.
Qed.

Lemma apply_ends : forall expr nl n args f first, 1 <= n -> length args < f ->
  ends (apply_groups f expr nl n args first).
Proof.
  intros expr nl n args f. revert args. induction f as [|f IH]; intros args first N L; [lia|].
  cbn [apply_groups]. destruct (Nat.ltb_spec (length args) n) as [B|B]; [exact I|].
  apply ends_bind; [apply substitute_ends|]. intros t _.
  apply ends_bind; [|intros; exact I]. apply IH; [exact N|]. rewrite skipn_length. lia.
Qed.

Lemma int_result_ends : forall z, ends (int_result z).
Proof. intros z. unfold int_result. now destruct (_ && _). Qed.

Lemma builtin_ends : forall ident args, ends (apply_builtin_macro ident args).
Proof.
  intros ident args. unfold apply_builtin_macro.
  destruct (text_eqb ident (T "length")).
  { destruct args as [|s [|? ?]]; try exact I. destruct s as [|c [|d s]]; try exact I.
    destruct (rev (c :: d :: s)); [exact I|]. now destruct (_ || _). }
  destruct (text_in ident _).
  { destruct args as [|x [|y [|? ?]]]; try exact I.
    destruct (parse_int x) as [a|]; [|exact I]. destruct (parse_int y) as [b|]; [|exact I].
    destruct (text_eqb ident (T "add")); [apply int_result_ends|].
    destruct (text_eqb ident (T "sub")); [apply int_result_ends|].
    destruct (text_eqb ident (T "mul")); [apply int_result_ends|].
    destruct (text_eqb ident (T "div")); [destruct (b =? 0)%Z; [exact I|apply int_result_ends]|].
    destruct (text_eqb ident (T "mod")).
    { destruct (b =? 0)%Z; [exact I|]. apply ends_bind; [apply int_result_ends|].
      intros ? _. apply int_result_ends. }
    destruct (text_eqb ident (T "min")); apply int_result_ends. }
  destruct (text_eqb ident (T "repeat")).
  { destruct args as [|x [|y [|? ?]]]; try exact I. now destruct (parse_int y). }
  destruct (text_eqb ident (T "default")).
  { destruct args as [|x [|y [|? ?]]]; try exact I. }
  destruct (text_eqb ident (T "apply")); [|exact I].
  destruct args as [|x r]; [exact I|]. eapply post_bind; [apply formal_ends|].
  intros n Hn. destruct (Z.eqb_spec n 0) as [E|E]; [exact I|]. cbn [orb].
  destruct (Z.of_nat (length r) <? n)%Z; [exact I|]. cbn beta in Hn. apply apply_ends; lia.
Qed.

Lemma map_res_ends : forall A B (f : A -> pres B) l, (forall x, ends (f x)) -> ends (map_res f l).
Proof.
  intros A B f l H. induction l as [|x l IH]; [exact I|]. cbn [map_res].
  apply ends_bind; [apply H|]. intros y _. apply ends_bind; [exact IH|intros; exact I].
Qed.

Section Level.
Variable m : macros.
Variable pp : text -> pres text.
Hypothesis pp_ends : forall t, ends (pp t).

Lemma substitute_variables_ends : forall t, ends (substitute_variables m pp t).
Proof.
  intros t. unfold substitute_variables.
  assert (K : forall f it, length it < f -> ends (substitute_variables_loop m pp f it)).
  { induction f as [|f IH]; intros it L; [lia|]. cbn [substitute_variables_loop].
    destruct (skip_until (T "$") it) as [r|] eqn:F; [|exact I].
    apply skip_until_later in F; [|discriminate]. apply later_length in F.
    assert (X : exists b r1, match skip (T "{") r with
                             | Some q => (true, q) | None => (false, r) end = (b, r1)
                             /\ length r1 <= length r).
    { destruct (skip (T "{") r) as [q|] eqn:G; [exists true, q|exists false, r];
        (split; [reflexivity|]); [apply skip_suffix, suffix_length in G|]; lia. }
    destruct X as [b [r1 [X Y]]]. rewrite X.
    destruct (read_ident r1) as [i r2] eqn:R. apply read_ident_suffix, suffix_length in R.
    assert (Z : exists c r3, (if b then match skip (T "}") r2 with
                                        | Some q => (true, q) | None => (false, r2) end
                              else (true, r2)) = (c, r3) /\ length r3 <= length r2).
    { destruct b; [|exists true, r2; now split].
      destruct (skip (T "}") r2) as [q|] eqn:G; [exists true, q|exists false, r2];
        (split; [reflexivity|]); [apply skip_suffix, suffix_length in G|]; lia. }
    destruct Z as [c [r3 [Z W]]]. rewrite Z.
    assert (E : ends (substitute_variables_loop m pp f r3)) by (apply IH; lia).
    destruct c; [|now apply ends_bind].
    destruct (find_macro m i); [|now apply ends_bind].
    apply ends_bind; [apply pp_ends|]. intros v _. now apply ends_bind. }
  apply K. lia.
Qed.

Lemma preprocess_range_ends : forall b t, ends (preprocess_range m pp b t).
Proof.
  intros b t. unfold preprocess_range. generalize (skip_space t). clear t. intros t.
  assert (K : forall f it, length it < f -> ends (preprocess_loop m pp f b it)).
  { induction f as [|f IH]; intros it L; [lia|]. cbn [preprocess_loop].
    destruct it as [|c r]; [exact I|].
    destruct (read_ident (c :: r)) as [ident q] eqn:R.
    destruct ident as [|i0 ident].
    - apply sres_bind. intros s Hs.
      assert (X : post (fun s => match s with Some q => later q (c :: r) | None => True end)
                    match s with
                    | Some _ => POk s
                    | None => do s0 <- of_sres (skip_terminal_command (c :: r));;
                              match s0 with
                              | Some _ => POk s0
                              | None => of_sres (skip_regular_expression (c :: r))
                              end
                    end).
      { destruct s as [q'|]; [now apply skip_string_later|].
        apply sres_bind. intros [q'|] G; [now apply skip_terminal_later|].
        destruct (skip_regular_expression (c :: r)) as [[q'|]|] eqn:G'; cbn; auto.
        now apply skip_regex_later. }
      eapply post_bind; [exact X|]. intros [q'|] Q.
      + apply ends_bind; [apply substitute_variables_ends|]. intros x _.
        apply ends_bind; [|intros; exact I]. apply IH. apply later_length in Q. lia.
      + destruct (is_comment_char c); [exact I|].
        apply ends_bind; [|intros; exact I]. apply IH. cbn in L. lia.
    - apply read_ident_later, later_length in R.
      apply sres_bind. intros [q'|] A.
      + pose proof (skip_arglist_later _ _ A) as A'. apply later_length in A'.
        assert (Rq : ends (preprocess_loop m pp f b q')) by (apply IH; lia).
        destruct b; [|now apply ends_bind].
        destruct (argument_list_cut q q' A) as [l [_ G]]. rewrite G. cbn [pbind].
        apply ends_bind; [now apply map_res_ends|]. intros args _.
        apply ends_bind; [destruct (find_macro m _); [apply substitute_ends|apply builtin_ends]|].
        intros x _. apply ends_bind; [apply variable_ends|]. intros [|] _; [now apply ends_bind|].
        apply sres_bind. intros q'' B. apply skip_arglists_suffix, suffix_length in B.
        apply ends_bind; [apply pp_ends|]. intros y _.
        apply ends_bind; [|intros; exact I]. apply IH. lia.
      + apply ends_bind; [apply pp_ends|]. intros v _.
        apply ends_bind; [|intros; exact I]. apply IH. lia. }
  apply K. lia.
Qed.
End Level.

Lemma preprocess_str_ends : forall m level t, ends (preprocess_str m level t).
Proof.
  intros m. induction level as [|l IH]; intros t; [exact I|]. cbn [preprocess_str].
  destruct (read_ident t) as [[|c i] [|d q]]; try now apply preprocess_range_ends.
  destruct (find_macro m t); [apply IH|exact I].
Qed.
Theorem preprocess_ends : forall m t, ends (preprocess m t).
Proof. intros m t. apply preprocess_str_ends. Qed.
