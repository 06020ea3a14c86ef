(** The macros in a line expand to what ExpandSpec.v says. *)
From Coq Require Import String Ascii List Arith NArith ZArith Bool Lia.
From Verif Require Import Base Text TextSpec TextProofs ParseSeq Config
  MacroSpec MacroTokens MacroProofs MacroCalls ExprSpec ExpandSpec ExpandBuiltin.
Import ListNotations.
Local Open Scope char_scope.
Local Open Scope nat_scope.

Lemma space_not_ident : forall c, is_space c = true -> is_ident_char c = false /\ is_comment_char c = false /\ is_quote c = false.
Proof. intros [[] [] [] [] [] [] [] []]; vm_compute; intuition discriminate. Qed.
Lemma ident_no_quote : forall c, is_ident_char c = true -> is_space c = false /\ is_comment_char c = false /\ is_quote c = false.
Proof. intros [[] [] [] [] [] [] [] []]; vm_compute; intuition discriminate. Qed.

Lemma skip_spaces : forall s x, spaces s -> skip_space (s ++ x) = skip_space x.
Proof.
  intros s x H. induction H as [|c s C _ IH]; [reflexivity|]. cbn [app skip_space]. now rewrite C.
Qed.
Lemma skip_space_first : forall x, match x with c :: _ => is_space c = false /\ is_comment_char c = false | [] => True end ->
  skip_space x = x.
Proof. intros [|c x] H; [reflexivity|]. cbn. destruct H as [-> ->]. reflexivity. Qed.

Lemma read_word : forall i r, word i -> apart r -> read_ident (i ++ r) = (i, r).
Proof. intros i r [_ F] A. now apply read_ident_word. Qed.

Section Macros.
Variable m : macros.

Lemma no_variable_suffix : forall a t, no_variable (find_macro m) (a ++ t) -> no_variable (find_macro m) t.
Proof.
  intros a t H b i r E F A. apply (H (a ++ b) i r); [|exact F|exact A].
  destruct E as [->| ->]; [left|right]; now rewrite <- app_assoc.
Qed.

Lemma variables_kept : forall pp f it, length it < f -> no_variable (find_macro m) it ->
  substitute_variables_loop m pp f it = POk it.
Proof.
  intros pp. induction f as [|f IH]; intros it L V; [lia|]. cbn [substitute_variables_loop].
  destruct (skip_until (T "$") it) as [r|] eqn:E; [|reflexivity].
  apply skip_until_app in E. destruct E as [a ->]. change (T "$" ++ r) with ("$" :: r) in *.
  assert (H : forall (b : bool) i q, r = (if b then ["{"] else []) ++ i ++ q ->
              Forall (fun c => is_ident_char c = true) i -> apart q -> find_macro m i = None).
  { intros b i q -> F A. apply (V a i q); [|exact F|exact A]. destruct b; [now right|now left]. }
  assert (R : forall r3, suffix r3 r -> substitute_variables_loop m pp f r3 = POk r3).
  { intros r3 [b ->]. apply IH.
    - rewrite app_length in L. cbn [length] in L. rewrite app_length in L. lia.
    - apply (no_variable_suffix (a ++ "$" :: b)). now rewrite <- app_assoc. }
  assert (B : forall r3, suffix r3 r -> before (a ++ "$" :: r) r3 ++ r3 = a ++ "$" :: r).
  { intros r3 [b ->]. replace (a ++ "$" :: b ++ r3) with ((a ++ "$" :: b) ++ r3) by now rewrite <- app_assoc.
    now rewrite before_app. }
  destruct (skip (T "{") r) as [q|] eqn:Sk.
  - apply skip_app in Sk. change (T "{" ++ q) with ("{" :: q) in Sk.
    destruct (read_ident q) as [i r2] eqn:Ri. pose proof (read_ident_app _ _ _ Ri) as Ea.
    assert (A : Forall (fun c => is_ident_char c = true) i /\ apart r2).
    { clear - Ri. revert i r2 Ri. induction q as [|c q IHq]; intros i r2 E.
      - cbn in E. injection E as <- <-. now split.
      - cbn [read_ident] in E. destruct (is_ident_char c) eqn:C.
        + destruct (read_ident q) as [j x]. injection E as <- <-. destruct (IHq j x eq_refl). split; [now constructor|assumption].
        + injection E as <- <-. split; [constructor|exact C]. }
    destruct A as [F A]. rewrite (H true i r2) by (assumption || (subst; reflexivity)).
    assert (Sf : suffix r2 r) by (exists ("{" :: i); subst; reflexivity).
    destruct (skip (T "}") r2) as [r3|] eqn:Sc.
    + assert (S3 : suffix r3 r) by (eapply suffix_trans; [eapply skip_suffix; exact Sc|exact Sf]).
      rewrite R by exact S3. cbn [pbind]. now rewrite B.
    + rewrite R by exact Sf. cbn [pbind]. now rewrite B.
  - destruct (read_ident r) as [i r2] eqn:Ri. pose proof (read_ident_app _ _ _ Ri) as Ea.
    assert (A : Forall (fun c => is_ident_char c = true) i /\ apart r2).
    { clear - Ri. revert i r2 Ri. induction r as [|c q IHq]; intros i r2 E.
      - cbn in E. injection E as <- <-. now split.
      - cbn [read_ident] in E. destruct (is_ident_char c) eqn:C.
        + destruct (read_ident q) as [j x]. injection E as <- <-. destruct (IHq j x eq_refl). split; [now constructor|assumption].
        + injection E as <- <-. split; [constructor|exact C]. }
    destruct A as [F A]. rewrite (H false i r2) by (assumption || (subst; reflexivity)).
    assert (Sf : suffix r2 r) by (exists i; subst; reflexivity).
    rewrite R by exact Sf. cbn [pbind]. now rewrite B.
Qed.
Lemma variables_kept_all : forall pp it, no_variable (find_macro m) it -> substitute_variables m pp it = POk it.
Proof. intros pp it V. apply variables_kept; [lia|exact V]. Qed.
End Macros.

(** * Strings, commands and regular expressions *)
Lemma nis_char : forall p c r, ~ quotes c -> c <> p ->
  skip_until_not_in_string [p] (c :: r) = skip_until_not_in_string [p] r.
Proof.
  intros p c r Q N. rewrite nis_eq. unfold nis_next. unfold quotes in Q.
  destruct (is_quote c); [easy|]. cbn [skip]. destruct (Ascii.eqb_spec p c); [now subst|reflexivity].
Qed.
Lemma nis_string : forall p q s r, quotes q -> ~ In q s -> no_quote_first r ->
  skip_until_not_in_string [p] (q :: s ++ q :: r) = skip_until_not_in_string [p] r.
Proof.
  intros p q s r Q N R. rewrite nis_eq. unfold nis_next at 1. unfold quotes in Q. rewrite Q.
  rewrite skip_until_char by exact N. rewrite (nis_eq [p] r).
  assert (X : nis_next r = SOk r).
  { unfold nis_next. destruct r as [|c r]; [reflexivity|]. unfold no_quote_first, quotes in R. now destruct (is_quote c). }
  now rewrite X.
Qed.
Lemma outside_found : forall p c r, outside (fun x => x = p) c -> ~ quotes p ->
  skip_until_not_in_string [p] (c ++ p :: r) = SOk (Some r).
Proof.
  intros p c r H Q. induction H as [|c t Qc Nc _ IH|q s t Qq Nq Nf _ IH].
  - cbn [app]. rewrite nis_eq. unfold nis_next. unfold quotes in Q. destruct (is_quote p); [easy|].
    cbn [skip]. now rewrite eqb_refl'.
  - cbn [app]. now rewrite nis_char.
  - cbn [app]. rewrite <- app_assoc. cbn [app]. rewrite nis_string; [exact IH|exact Qq|exact Nq|].
    destruct t; [exact Q|exact Nf].
Qed.
Lemma outside_none : forall p t, outside (fun x => x = p) t -> skip_until_not_in_string [p] t = SOk None.
Proof.
  intros p t H. induction H as [|c t Qc Nc _ IH|q s t Qq Nq Nf _ IH].
  - reflexivity.
  - now rewrite nis_char.
  - now rewrite nis_string.
Qed.
Lemma closed_no_throw : forall p t, closed t -> skip_until_not_in_string [p] t <> SThrow.
Proof.
  intros p t H. induction H as [|c t Qc _ _ IH|q s t Qq Nq Nf _ IH].
  - discriminate.
  - destruct (Ascii.eqb_spec c p) as [->|N].
    + rewrite nis_eq. unfold nis_next. unfold quotes in Qc. destruct (is_quote p); [easy|].
      cbn [skip]. rewrite eqb_refl'. discriminate.
    + now rewrite nis_char.
  - now rewrite nis_string.
Qed.
Lemma pattern_read : forall x r, pattern x -> regex_loop false (x ++ "/" :: r) =
  SOk (match skip (T "i") r with Some q => q | None => r end).
Proof.
  intros x r H. induction H as [|c x N1 N2 _ IH|c x _ IH].
  - reflexivity.
  - cbn [app regex_loop]. assert (E : (code c =? 47)%N = false /\ (code c =? 92)%N = false).
    { revert N1 N2. clear. revert c. intros [[] [] [] [] [] [] [] []] N1 N2; vm_compute; split; try reflexivity; exfalso; (now apply N1) || (now apply N2). }
    destruct E as [-> ->]. exact IH.
  - cbn [app regex_loop]. change (code "\" =? 47)%N with false. change (code "\" =? 92)%N with true. cbn [negb].
    destruct (code c =? 47)%N; [exact IH|]. destruct (code c =? 92)%N; exact IH.
Qed.
Lemma arglist_skipped : forall args r, args <> [] -> Forall (argument true) args -> closed r ->
  skip_arglist (arglist args ++ r) = SOk (Some r).
Proof.
  intros args r N H C. destruct (arguments_tokens args N H) as [l [E [Hl [K _]]]].
  unfold arglist. rewrite E. cbn [app]. apply skip_arglist_complete; [exact Hl|exact K|]. now apply closed_no_throw.
Qed.

Section Expand.
Variable m : macros.

Lemma no_bracket : forall r, match r with c :: _ => c <> "[" | [] => True end -> skip_arglist r = SOk None.
Proof.
  intros [|c r] H; [reflexivity|]. unfold skip_arglist. change (T "[") with ["["]. cbn [skip].
  destruct (Ascii.eqb_spec "[" c); [now subst|reflexivity].
Qed.

Lemma no_brace : forall i r, Forall (fun c => is_ident_char c = true) i -> (i = [] -> match r with c :: _ => c <> "{" | [] => True end) ->
  skip (T "{") (i ++ r) = None.
Proof.
  intros i r F B. change (T "{") with ["{"]. destruct i as [|c i].
  - cbn [app]. destruct r as [|c r]; [reflexivity|]. specialize (B eq_refl). cbn [skip]. destruct (Ascii.eqb_spec "{" c); [now subst|reflexivity].
  - cbn [app skip]. destruct (Ascii.eqb_spec "{" c); [subst|reflexivity]. apply Forall_inv in F. discriminate.
Qed.

Lemma expansion :
  (forall n t x, expands (find_macro m) n t x -> preprocess_str m n t = POk x) /\
  (forall k n t x, parts (find_macro m) k n t x ->
   forall f, length t < f -> preprocess_loop m (preprocess_str m n) f (negb k) t = POk x) /\
  (forall n l x, expand_all (find_macro m) n l x -> map_res (preprocess_str m n) (map trim l) = POk x) /\
  (forall n t x, filled (find_macro m) n t x ->
   forall f, length t < f -> substitute_variables_loop m (preprocess_str m n) f t = POk x).
Proof.
  apply (expansion_ind (find_macro m)
    (fun n t x => preprocess_str m n t = POk x)
    (fun k n t x => forall f, length t < f -> preprocess_loop m (preprocess_str m n) f (negb k) t = POk x)
    (fun n l x => map_res (preprocess_str m n) (map trim l) = POk x)
    (fun n t x => forall f, length t < f -> substitute_variables_loop m (preprocess_str m n) f t = POk x)).
  - intros n i W M. cbn [preprocess_str]. pose proof (read_word i [] W I) as R. rewrite app_nil_r in R. rewrite R.
    destruct i as [|c i]; [now destruct W|]. now rewrite M.
  - intros n i v t W M _ IH. cbn [preprocess_str]. pose proof (read_word i [] W I) as R. rewrite app_nil_r in R. rewrite R.
    destruct i as [|c i]; [now destruct W|]. now rewrite M.
  - intros n s x t Sp F NW P IH. cbn [preprocess_str].
    assert (E : preprocess_range m (preprocess_str m n) true (s ++ x) = POk t).
    { unfold preprocess_range. rewrite skip_spaces by exact Sp.
      destruct x as [|c x]; [cbn [skip_space]; apply IH; cbn; lia|]. cbn [skip_space]. rewrite F.
      destruct (is_comment_char c) eqn:C; [|apply IH; lia].
      specialize (IH (S (S (length x)))). cbn [preprocess_loop read_ident] in IH.
      destruct (is_ident_char c) eqn:Ic; [apply ident_no_quote in Ic; destruct Ic as [_ [Ic _]]; congruence|].
      assert (Q : is_quote c = false /\ c <> "$" /\ c <> "/").
      { revert C. clear. revert c. intros [[] [] [] [] [] [] [] []]; vm_compute; intuition discriminate. }
      destruct Q as [Q [Q1 Q2]]. unfold skip_string in IH. rewrite Q in IH. cbn [of_sres pbind] in IH.
      unfold skip_terminal_command in IH. change (T "$(") with ["$"; "("] in IH. cbn [skip] in IH.
      destruct (Ascii.eqb_spec "$" c) as [<-|_]; [easy|]. cbn [of_sres pbind] in IH.
      unfold skip_regular_expression in IH. change (T "/") with ["/"] in IH. cbn [skip] in IH.
      destruct (Ascii.eqb_spec "/" c) as [<-|_]; [easy|]. cbn [of_sres pbind] in IH. rewrite C in IH.
      cbn [length preprocess_loop]. apply IH. cbn [length]. lia. }
    destruct (read_ident (s ++ x)) as [i r] eqn:R. destruct i as [|c i]; [exact E|]. destruct r as [|d r]; [|exact E].
    exfalso. apply NW. pose proof (read_ident_app _ _ _ R) as Ea. rewrite app_nil_r in Ea.
    rewrite Ea. split; [discriminate|]. rewrite Ea in R. clear - R.
    revert R. generalize (c :: i). intros t R. assert (G : forall t i q, read_ident t = (i, q) -> Forall (fun c => is_ident_char c = true) i).
    { clear. induction t as [|c t IH]; intros i q R; cbn [read_ident] in R.
      - injection R as <- _. constructor.
      - destruct (is_ident_char c) eqn:C; [|injection R as <- _; constructor].
        destruct (read_ident t) as [j y]. injection R as <- _. constructor; [exact C|]. now apply (IH j y). }
    now apply (G t t []).
  - intros k n [|f] L; [lia|]. reflexivity.
  - intros k n c r C [|f] L; [lia|]. cbn [preprocess_loop read_ident].
    destruct (is_ident_char c) eqn:Ic; [apply ident_no_quote in Ic; destruct Ic as [_ [Ic _]]; congruence|].
    assert (Q : is_quote c = false /\ c <> "$" /\ c <> "/").
    { revert C. clear. revert c. intros [[] [] [] [] [] [] [] []]; vm_compute; intuition discriminate. }
    destruct Q as [Q [Q1 Q2]]. unfold skip_string. rewrite Q. cbn [of_sres pbind].
    unfold skip_terminal_command. change (T "$(") with ["$"; "("]. cbn [skip].
    destruct (Ascii.eqb_spec "$" c) as [<-|_]; [easy|]. cbn [of_sres pbind].
    unfold skip_regular_expression. change (T "/") with ["/"]. cbn [skip].
    destruct (Ascii.eqb_spec "/" c) as [<-|_]; [easy|]. cbn [of_sres pbind]. now rewrite C.
  - intros k n i r t u W A B _ IHi _ IHr [|f] L; [lia|]. cbn [preprocess_loop].
    destruct i as [|c i]; [now destruct W|]. cbn [app].
    change (c :: i ++ r) with ((c :: i) ++ r). rewrite read_word by assumption.
    rewrite no_bracket by exact B. cbn [of_sres pbind]. rewrite IHi. cbn [pbind]. rewrite IHr; [reflexivity|].
    rewrite app_length in L. cbn in L. lia.
  - intros n i args r u W Na Fa C _ IHr [|f] L; [lia|]. cbn [preprocess_loop].
    destruct i as [|c i]; [now destruct W|]. cbn [app].
    change (c :: i ++ arglist args ++ r) with ((c :: i) ++ arglist args ++ r).
    rewrite read_word; [|exact W|reflexivity].
    rewrite arglist_skipped by assumption. cbn [of_sres pbind negb].
    rewrite before_app. cbn [negb] in IHr. rewrite IHr; [reflexivity|].
    rewrite !app_length in L. cbn [length] in L. lia.
  - intros n i args vals b r t u W Na Fa C Nb _ IHa Hb Cb Pb _ IHb _ IHr [|f] L; [lia|]. cbn [preprocess_loop].
    destruct i as [|c i]; [now destruct W|]. cbn [app].
    change (c :: i ++ arglist args ++ r) with ((c :: i) ++ arglist args ++ r).
    rewrite read_word; [|exact W|reflexivity].
    rewrite arglist_skipped by assumption. cbn [of_sres pbind negb].
    rewrite before_app, arguments_split by assumption. cbn [pbind]. rewrite IHa. cbn [pbind].
    assert (Eb : match find_macro m (c :: i) with Some v => substitute_arguments v vals | None => apply_builtin_macro (c :: i) vals end = POk b).
    { clear - Hb. destruct Hb as [i' vals ps rs M Ok B R|i' vals b M B]; rewrite M.
      - now apply substituted.
      - now apply builtin_applied. }
    rewrite Eb. cbn [pbind]. rewrite no_variables_left by assumption. cbn [pbind].
    assert (Ka : skip_arglists r = SOk r).
    { unfold skip_arglists. destruct (length r); [reflexivity|]. cbn [skip_arglists_fuel]. now rewrite no_bracket. }
    rewrite Ka. cbn [of_sres pbind].
    assert (B0 : before r r = []) by (apply (before_app [] r)). rewrite B0, app_nil_r, IHb. cbn [pbind].
    cbn [negb] in IHr. rewrite IHr; [reflexivity|]. rewrite !app_length in L. cbn [length] in L. lia.
  - intros k n q s x r u Q N _ IHx _ IHr [|f] L; [lia|]. cbn [preprocess_loop read_ident].
    destruct (is_ident_char q) eqn:Ic; [apply ident_no_quote in Ic; destruct Ic as [_ [_ Ic]]; unfold quotes in Q; congruence|].
    unfold skip_string. unfold quotes in Q. rewrite Q, skip_until_char by exact N. cbn [of_sres pbind].
    replace (q :: s ++ q :: r) with ((q :: s ++ [q]) ++ r) by (cbn; now rewrite <- app_assoc).
    rewrite before_app. unfold substitute_variables. rewrite IHx by lia. cbn [pbind]. rewrite IHr.
    + reflexivity.
    + cbn [length] in L. rewrite app_length in L. cbn [length] in L. lia.
  - intros k n c x r u O _ IHx _ IHr [|f] L; [lia|]. cbn [preprocess_loop read_ident]. change (is_ident_char "$") with false. cbv iota.
    unfold skip_string. change (is_quote "$") with false. cbv iota. cbn [of_sres pbind].
    unfold skip_terminal_command. change (T "$(") with ["$"; "("]. cbn [skip]. rewrite !eqb_refl'.
    change (T ")") with [")"]. rewrite outside_found; [|exact O|discriminate]. cbn [of_sres pbind].
    replace ("$" :: "(" :: c ++ ")" :: r) with (("$" :: "(" :: c ++ [")"]) ++ r) by (cbn; now rewrite <- app_assoc).
    rewrite before_app. unfold substitute_variables. rewrite IHx by lia. cbn [pbind]. rewrite IHr.
    + reflexivity.
    + cbn [length] in L. rewrite app_length in L. cbn [length] in L. lia.
  - intros k n x i y r u P Hi _ IHx _ IHr [|f] L; [lia|]. cbn [preprocess_loop read_ident]. change (is_ident_char "/") with false. cbv iota.
    unfold skip_string. change (is_quote "/") with false. cbv iota. cbn [of_sres pbind].
    unfold skip_terminal_command. change (T "$(") with ["$"; "("]. cbn [skip]. change (Ascii.eqb "$" "/") with false. cbv iota. cbn [of_sres pbind].
    unfold skip_regular_expression. change (T "/") with ["/"]. cbn [skip]. rewrite !eqb_refl'.
    rewrite pattern_read by exact P.
    assert (Sk : match skip (T "i") (i ++ r) with Some q => q | None => i ++ r end = r).
    { change (T "i") with ["i"]. destruct Hi as [->|[-> F]].
      - cbn [app skip]. now rewrite eqb_refl'.
      - cbn [app]. destruct r as [|d r]; [reflexivity|]. cbn [skip]. destruct (Ascii.eqb_spec "i" d); [now subst|reflexivity]. }
    rewrite Sk. cbn [of_sres pbind].
    replace ("/" :: x ++ "/" :: i ++ r) with (("/" :: x ++ "/" :: i) ++ r) by (cbn; now rewrite <- !app_assoc).
    rewrite before_app. unfold substitute_variables. rewrite IHx by lia. cbn [pbind]. rewrite IHr.
    + reflexivity.
    + cbn [length] in L. rewrite app_length in L. cbn [length] in L. rewrite app_length in L. lia.
  - intros k n c r u Ic Q Sl C D _ IHr [|f] L; [lia|]. cbn [preprocess_loop read_ident]. rewrite Ic.
    unfold skip_string. unfold quotes in Q. destruct (is_quote c); [easy|]. cbn [of_sres pbind].
    unfold skip_terminal_command. change (T "$(") with ["$"; "("].
    assert (Sk : skip ["$"; "("] (c :: r) = None).
    { cbn [skip]. destruct (Ascii.eqb_spec "$" c) as [<-|_]; [|reflexivity]. specialize (D eq_refl).
      destruct r as [|d r]; [reflexivity|]. cbn [skip]. destruct (Ascii.eqb_spec "(" d); [now subst|reflexivity]. }
    rewrite Sk. cbn [of_sres pbind]. unfold skip_regular_expression. change (T "/") with ["/"]. cbn [skip].
    destruct (Ascii.eqb_spec "/" c) as [<-|_]; [easy|]. cbn [of_sres pbind]. rewrite C.
    rewrite IHr; [reflexivity|]. cbn [length] in L. lia.
  - reflexivity.
  - intros n a b v args vals Tr _ IHb _ IHa. cbn [map map_res]. rewrite (trimmed_trim a b Tr), IHb. cbn [pbind]. rewrite IHa. reflexivity.
  - intros n s V f L. now apply variables_kept.
  - intros n a i r v w u Nd F A Br M _ IHi U _ IHr [|f] L; [lia|]. cbn [substitute_variables_loop].
    rewrite skip_until_dollar by exact Nd.
    assert (B : skip (T "{") (i ++ r) = None) by now apply no_brace.
    rewrite B, read_ident_word by assumption. destruct (find_macro m i) as [mv|]; [|easy]. rewrite IHi. cbn [pbind].
    rewrite IHr by (rewrite app_length in L; cbn [length] in L; rewrite app_length in L; lia). cbn [pbind].
    replace (a ++ "$" :: i ++ r) with ((a ++ ["$"]) ++ i ++ r) by now rewrite <- app_assoc.
    rewrite before_app, removelast_last. do 3 f_equal. now apply (unquoted_fun v); [apply unquote_unquoted|].
  - intros n a i r v w u Nd F M _ IHi U _ IHr [|f] L; [lia|]. cbn [substitute_variables_loop].
    rewrite skip_until_dollar by exact Nd. change (T "{") with ["{"]. cbn [skip]. rewrite eqb_refl'.
    rewrite read_ident_word by (assumption || reflexivity). change (T "}") with ["}"]. cbn [skip]. rewrite eqb_refl'.
    destruct (find_macro m i) as [mv|]; [|easy]. rewrite IHi. cbn [pbind].
    rewrite IHr by (rewrite app_length in L; cbn [length] in L; rewrite app_length in L; cbn [length] in L; lia). cbn [pbind].
    replace (a ++ "$" :: "{" :: i ++ "}" :: r) with ((a ++ ["$"]) ++ "{" :: i ++ "}" :: r) by now rewrite <- app_assoc.
    rewrite before_app, removelast_last. do 3 f_equal. now apply (unquoted_fun v); [apply unquote_unquoted|].
  - intros n a i r u Nd F A M Br _ IHr [|f] L; [lia|]. cbn [substitute_variables_loop].
    rewrite skip_until_dollar by exact Nd.
    assert (B : skip (T "{") (i ++ r) = None) by now apply no_brace.
    rewrite B, read_ident_word by assumption. rewrite M.
    rewrite IHr by (rewrite app_length in L; cbn [length] in L; rewrite app_length in L; lia). cbn [pbind].
    replace (a ++ "$" :: i ++ r) with ((a ++ "$" :: i) ++ r) by now rewrite <- app_assoc.
    rewrite before_app. now rewrite <- app_assoc.
Qed.

Theorem expanded : forall t x, expands (find_macro m) 30 t x -> preprocess m t = POk x.
Proof. intros t x H. now apply expansion. Qed.
(** The value of a macro when it is defined *)
Theorem definition_expanded : forall s t x, spaces s -> match t with c :: _ => is_space c = false | [] => True end ->
  parts (find_macro m) true 30 t x ->
  preprocess_range m (preprocess m) false (s ++ t) = POk x.
Proof.
  intros s t x Sp F P. unfold preprocess_range, preprocess. rewrite skip_spaces by exact Sp.
  pose proof (proj1 (proj2 expansion) true 30 t x P) as E. cbn [negb] in E. destruct t as [|c t]; [apply E; cbn; lia|].
  cbn [skip_space]. rewrite F. destruct (is_comment_char c) eqn:C; [|apply E; lia].
  specialize (E (S (S (length t)))). cbn [preprocess_loop read_ident] in E.
  destruct (is_ident_char c) eqn:Ic; [apply ident_no_quote in Ic; destruct Ic as [_ [Ic _]]; congruence|].
  assert (Q : is_quote c = false /\ c <> "$" /\ c <> "/").
  { revert C. clear. revert c. intros [[] [] [] [] [] [] [] []]; vm_compute; intuition discriminate. }
  destruct Q as [Q [Q1 Q2]]. unfold skip_string in E. rewrite Q in E. cbn [of_sres pbind] in E.
  unfold skip_terminal_command in E. change (T "$(") with ["$"; "("] in E. cbn [skip] in E.
  destruct (Ascii.eqb_spec "$" c) as [<-|_]; [easy|]. cbn [of_sres pbind] in E.
  unfold skip_regular_expression in E. change (T "/") with ["/"] in E. cbn [skip] in E.
  destruct (Ascii.eqb_spec "/" c) as [<-|_]; [easy|]. cbn [of_sres pbind] in E. rewrite C in E.
  cbn [length preprocess_loop]. apply E. cbn [length]. lia.
Qed.
End Expand.
