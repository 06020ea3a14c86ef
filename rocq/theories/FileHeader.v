(** Headers are read as FileSpec.v says. *)
From Coq Require Import String Ascii List Arith NArith ZArith Bool Lia.
From Verif Require Import Base Key Text TextSpec TextProofs ParseSeq Stage Config ConfigSpec ClientProofs
  MacroSpec MacroTokens MacroCalls ExprSpec ExprProofs ExpandSpec ExpandProofs FileSpec FileStore.
Import ListNotations.
Local Open Scope char_scope.
Local Open Scope nat_scope.

Lemma no_variable_ext : forall f g, (forall n, f n = g n) -> forall s, no_variable f s -> no_variable g s.
Proof. intros f g E s H a i r Es F A. rewrite <- E. eapply H; eauto. Qed.
Lemma body_ext : forall f g, (forall n, f n = g n) -> forall i vals b, body f i vals b -> body g i vals b.
Proof.
  intros f g E i vals b [i' vals' ps rs M Ok B R|i' vals' b' M B]; rewrite E in M.
  - now apply (body_macro g _ _ ps).
  - now apply body_builtin.
Qed.
Lemma expansion_ext : forall f g, (forall n, f n = g n) ->
  (forall n t x, expands f n t x -> expands g n t x) /\ (forall k n t x, parts f k n t x -> parts g k n t x) /\
  (forall n l x, expand_all f n l x -> expand_all g n l x) /\ (forall n t x, filled f n t x -> filled g n t x).
Proof.
  intros f g E. apply expansion_ind; intros.
  - apply x_name; [assumption|]. now rewrite <- E.
  - eapply x_macro; [assumption| |eassumption]. now rewrite <- E.
  - apply x_text; assumption.
  - apply p_end.
  - now apply p_comment.
  - now apply p_word.
  - now apply p_call.
  - eapply p_apply; try eassumption. now apply (body_ext f).
  - now apply p_string.
  - now apply p_command.
  - now apply p_regex.
  - now apply p_char.
  - apply all_none.
  - eapply all_more; eassumption.
  - apply f_keep. now apply (no_variable_ext f).
  - eapply f_value; try eassumption. now rewrite <- E.
  - eapply f_braces; try eassumption. now rewrite <- E.
  - eapply f_other; try eassumption. now rewrite <- E.
Qed.
Lemma rep_expanded : forall d c t x, represents d c -> expands (d_macros d) 30 t x -> preprocess (c_macros c) t = POk x.
Proof.
  intros d c t x R H. apply expanded. apply (proj1 (expansion_ext (d_macros d) (find_macro (c_macros c)) (fun n => eq_sym (r_macros _ _ R n)))).
  exact H.
Qed.

Section Headers.
Variable typer : option (key * bool) -> text -> list stroke.
Variable regex_ok : text -> bool -> bool.
Variable current_system : text.

(** * Filters *)

Lemma rev_slashed : forall x b, rev (x ++ "/" :: flag_text b) = rev (flag_text b) ++ "/" :: rev x.
Proof. intros x b. rewrite rev_app_distr. cbn [rev]. now rewrite <- app_assoc. Qed.
Lemma regex_checked : forall s x b, slashed s x b -> regex_ok x b = true -> is_regex s = true /\ check_regex regex_ok s = POk tt.
Proof.
  intros s x b -> H. split.
  - assert (E : rev ("/" :: x ++ "/" :: flag_text b) = rev (flag_text b) ++ "/" :: rev x ++ ["/"]).
    { cbn [rev]. rewrite rev_slashed, <- app_assoc. reflexivity. }
    unfold is_regex. destruct (x ++ "/" :: flag_text b) as [|e y] eqn:Ex; [now destruct x|]. cbn iota. rewrite E. destruct b; cbn [flag_text rev app]; [reflexivity|].
    destruct (rev x ++ ["/"]) eqn:E2; [now destruct (rev x)|reflexivity].
  - unfold check_regex. rewrite rev_slashed. destruct b; cbn [flag_text rev app Ascii.eqb Bool.eqb].
    + rewrite (app_assoc x ["/"] ["i"] : x ++ ["/"; "i"] = _), !removelast_last. now rewrite H.
    + rewrite removelast_last, H. reflexivity.
Qed.
Lemma text_no_regex : forall s, (forall x b, ~ slashed s x b) -> s <> ["/"; "i"] -> is_regex s = false.
Proof.
  intros s H N0. unfold is_regex. destruct s as [|c [|c' s]]; try reflexivity.
  destruct (rev (c :: c' :: s)) as [|a [|b r]] eqn:E; try reflexivity.
  destruct (Ascii.eqb c "/") eqn:C; [|reflexivity]. apply Ascii.eqb_eq in C. subst c. cbn [andb].
  destruct (Ascii.eqb (if Ascii.eqb a "i" then b else a) "/") eqn:A; [|reflexivity]. exfalso. apply Ascii.eqb_eq in A.
  apply (f_equal (@rev ascii)) in E. rewrite rev_involutive in E. cbn [rev] in E.
  destruct (Ascii.eqb a "i") eqn:I0.
  - apply Ascii.eqb_eq in I0. subst. destruct (rev r) as [|y r'] eqn:Er.
    + cbn in E. injection E as -> ->. now apply N0.
    + cbn in E. injection E as <- E. apply (H r' true). unfold slashed. rewrite E, <- app_assoc. reflexivity.
  - subst a. rewrite <- app_assoc in E. destruct (rev r) as [|y r'] eqn:Er.
    + cbn in E. injection E as <- -> ->. now apply (H [] false).
    + cbn in E. injection E as <- E. apply (H (r' ++ [b]) false). unfold slashed. rewrite E, <- app_assoc. reflexivity.
Qed.
Lemma ident_slash : forall c, is_ident_char c = true -> skip (T "/") [c] = None.
Proof. intros [[] [] [] [] [] [] [] []]; vm_compute; intuition discriminate. Qed.
Lemma quote_slash : forall c, is_quote c = true -> skip (T "/") [c] = None.
Proof. intros [[] [] [] [] [] [] [] []]; vm_compute; intuition discriminate. Qed.
Lemma no_regex_start : forall c r, skip (T "/") [c] = None -> skip_regular_expression (c :: r) = SOk None.
Proof.
  intros c r H. unfold skip_regular_expression. change (T "/") with ["/"] in *. cbn [skip] in *.
  destruct (Ascii.eqb "/" c); [discriminate|reflexivity].
Qed.
Lemma string_read : forall q s r, quotes q -> ~ In q s -> skip_until [q] (s ++ q :: r) = Some r /\
  removelast (before (s ++ q :: r) r) = s /\ removelast (tl (before (q :: s ++ q :: r) r)) = s.
Proof.
  intros q s r Q Nq. split; [now apply skip_until_char|].
  change (q :: s ++ q :: r) with ((q :: s) ++ [q] ++ r). change (s ++ q :: r) with (s ++ [q] ++ r).
  rewrite !app_assoc, !before_app. cbn [tl app]. now rewrite !removelast_last.
Qed.
Lemma word_read : forall w r, word w -> apart r -> exists c w', w = c :: w' /\ is_ident_char c = true /\ is_quote c = false.
Proof.
  intros w r [N0 F] A. destruct F as [|c w C F]; [easy|]. exists c, w. destruct (ident_no_quote c C) as [_ [_ Q]]. auto.
Qed.
Lemma value_read : forall v s r, value v s -> apart r -> read_value (v ++ r) = SOk (s, r).
Proof.
  intros v s r H A. destruct H as [q s Q Nq|w W].
  - cbn [app]. rewrite <- app_assoc. cbn [app read_value]. rewrite Q. destruct (string_read q s r Q Nq) as [E1 [E2 _]]. now rewrite E1, E2.
  - pose proof (read_word w r W A) as Er. destruct (word_read w r W A) as [c [w' [-> [C Q]]]]. cbn [app read_value] in *. now rewrite Q, Er.
Qed.
Lemma filter_string_read : forall d c v s r, represents d c -> filter_value d v s -> apart r ->
  read_filter_string (c_macros c) (v ++ r) = POk (s, r).
Proof.
  intros d c v s r R H A. unfold read_filter_string. destruct H as [v s H M|x b P].
  - destruct H as [q s Q Nq|w W].
    + cbn [app]. rewrite <- app_assoc. cbn [app]. rewrite no_regex_start by (now apply quote_slash). cbn [of_sres pbind].
      destruct (string_read q s r Q Nq) as [E1 [_ E2]]. unfold skip_string. rewrite Q, E1. cbn [of_sres pbind]. now rewrite E2.
    + pose proof (read_word w r W A) as Er.
      assert (X : preprocess (c_macros c) w = POk w).
      { apply (rep_expanded d c); [exact R|]. apply x_name; [exact W|]. now apply M. }
      destruct (word_read w r W A) as [y [w' [-> [C Q]]]]. cbn [app] in *.
      rewrite no_regex_start by (now apply ident_slash). cbn [of_sres pbind]. unfold skip_string. rewrite Q. cbn [of_sres pbind].
      rewrite Er, X. cbn [pbind]. destruct (rev (y :: w')) eqn:E.
      * reflexivity.
      * rewrite Q. reflexivity.
  - assert (E : skip_regular_expression (("/" :: x ++ "/" :: flag_text b) ++ r) = SOk (Some r)).
    { unfold skip_regular_expression. cbn [app]. rewrite <- app_assoc. cbn [app].
      change (skip (T "/") ("/" :: x ++ "/" :: flag_text b ++ r)) with (Some (x ++ "/" :: flag_text b ++ r)). cbn iota.
      rewrite pattern_read by exact P. destruct b; cbn [flag_text app]; [reflexivity|].
      destruct r as [|y r]; [reflexivity|]. change (T "i") with ["i"]. cbn [skip]. destruct (Ascii.eqb "i" y) eqn:Y; [|reflexivity].
      apply Ascii.eqb_eq in Y. subst y. discriminate. }
    rewrite E. cbn [of_sres pbind]. now rewrite before_app.
Qed.
Lemma filter_read : forall d c inv v s f r, represents d c -> filter_value d v s -> filter_for regex_ok inv s f -> apart r ->
  read_filter regex_ok (c_macros c) inv (v ++ r) = POk (f, r).
Proof.
  intros d c inv v s f r R V H A. unfold read_filter. rewrite (filter_string_read d c v s r R V A). cbn [pbind].
  destruct H as [s x b Sl Ok|s N0 Ns Ni].
  - destruct (regex_checked s x b Sl Ok) as [E1 E2]. rewrite E1, E2. cbn [pbind]. unfold slashed in Sl. now subst s.
  - rewrite (text_no_regex s Ns Ni). now destruct s.
Qed.

(** * Modifiers *)

Lemma contains_key_in : forall l k, contains_key l k = true <-> In k (map ek l).
Proof.
  intros l k. unfold contains_key. rewrite existsb_exists, in_map_iff. split; intros [e [A B]]; exists e.
  - apply N.eqb_eq in B. auto.
  - split; [exact B|]. now apply N.eqb_eq.
Qed.
Lemma modifiers_read : forall d t l, modifiers d t l -> forall f acc seen, length t < f ->
  (forall k, In k seen <-> In k (map ek acc)) ->
  modifier_loop f (d_logical d) t acc = POk (acc ++ firsts seen l).
Proof.
  intros d t l H. induction H as [s S0|s neg n k r l S0 [W [K Nk]] Nc A H IH]; intros f acc seen L Hs.
  - destruct f as [|f]; [lia|]. cbn [modifier_loop firsts]. rewrite skip_only_spaces by exact S0. now rewrite app_nil_r.
  - destruct f as [|f]; [lia|]. cbn [modifier_loop].
    assert (Sk : skip_space (s ++ (if neg then ["!"] else []) ++ n ++ r) = (if neg then ["!"] else []) ++ n ++ r).
    { apply skip_solid; [exact S0|]. destruct neg; [split; reflexivity|exact (word_solid n r W)]. }
    rewrite Sk. pose proof (read_word n r W A) as Er.
    assert (Ne : n ++ r <> []) by (destruct W as [W _]; now destruct n).
    assert (Ex : skip (T "!") (n ++ r) = None).
    { destruct (word_read n r W A) as [c [n' [-> [C _]]]]. cbn [app]. change (T "!") with ["!"]. cbn [skip].
      destruct (Ascii.eqb "!" c) eqn:E; [|reflexivity]. apply Ascii.eqb_eq in E. subst c. discriminate. }
    assert (Lr : length r < f).
    { rewrite !app_length in L. destruct W as [W _]. destruct n; [easy|]. cbn [length] in L. lia. }
    assert (Go : (let k := cfg_key_by_name (d_logical d) n in
       if (k =? 0)%N || (k =? k_ContextActive)%N then PErr
       else modifier_loop f (d_logical d) r (if contains_key acc k then acc else acc ++ [ev0 k (if neg then Not else Down)]))
      = POk (acc ++ firsts seen (Ev k (if neg then Not else Down) 0 :: l))).
    { cbn zeta. rewrite K. apply N.eqb_neq in Nk. apply N.eqb_neq in Nc. unfold k_none in Nk. rewrite Nk, Nc. cbn [orb].
      cbn [firsts ek]. destruct (contains_key acc k) eqn:Ck.
      - assert (E : existsb (N.eqb k) seen = true).
        { apply existsb_exists. exists k. split; [|apply N.eqb_refl]. apply Hs. now apply contains_key_in. }
        rewrite E. now apply IH.
      - assert (E : existsb (N.eqb k) seen = false).
        { destruct (existsb (N.eqb k) seen) eqn:E; [|reflexivity]. apply existsb_exists in E as [k' [Hk E]]. apply N.eqb_eq in E. subst k'.
          apply Hs in Hk. apply contains_key_in in Hk. congruence. }
        rewrite E. rewrite IH with (seen := k :: seen); [|exact Lr|].
        + now rewrite <- app_assoc.
        + intros k'. rewrite map_app, in_app_iff. cbn. rewrite Hs. tauto. }
    destruct neg; cbn [app] in *.
    + change (skip (T "!") ("!" :: n ++ r)) with (Some (n ++ r)). cbn iota beta. rewrite Er. exact Go.
    + destruct (n ++ r) as [|y z] eqn:Enr; [easy|]. rewrite Ex, Er. exact Go.
Qed.

(** * Attributes *)

Definition state_of_ctx (x : cctx) : attrs * bool := (attrs_of x, cc_sys x).
Definition rest_of (x : cctx) := (cc_inputs x, cc_outputs x, cc_commands x, cc_fall x, cc_stage x).

Definition one_attribute (c : cstate) (attrib : text) (invert : bool) (q : text) (x : cctx) : pres (cctx * text) :=
  let m := c_macros c in
  if text_eqb attrib (T "class") then
    do z <- read_filter regex_ok m invert q ;; POk (cc_set_class (fst z) x, snd z)
  else if text_eqb attrib (T "title") then
    do z <- read_filter regex_ok m invert q ;; POk (cc_set_title (fst z) x, snd z)
  else if text_eqb attrib (T "path") then
    do z <- read_filter regex_ok m invert q ;; POk (cc_set_path (fst z) x, snd z)
  else if text_eqb attrib (T "system") then
    do z <- of_sres (read_value q) ;;
    POk (cc_set_sys (xorb (equal_case_insensitive (fst z) current_system) invert) x, snd z)
  else if text_eqb attrib (T "device") then
    do z <- read_filter regex_ok m invert q ;; POk (cc_set_dev (fst z) x, snd z)
  else if text_in attrib ["device-id"; "device_id"]%string then
    do z <- read_filter regex_ok m invert q ;; POk (cc_set_devid (fst z) x, snd z)
  else if text_eqb attrib (T "modifier") then
    do z <- of_sres (read_value q) ;;
    do t <- preprocess m (fst z) ;;
    do l <- parse_modifier_list (c_logical c) t ;;
    POk (cc_set_mods l invert x, snd z)
  else PErr.

Lemma attribute_read : forall d c inv n v a r x, represents d c -> attribute_says regex_ok current_system d inv n v a -> apart r ->
  word n /\ exists x', one_attribute c n inv (v ++ r) x = POk (x', r) /\
    state_of_ctx x' = with_attribute (state_of_ctx x) a /\ rest_of x' = rest_of x.
Proof.
  intros d c inv n v a r x R H A. destruct H as [v s f V F|v s f V F|v s f V F|v s f V F|n v s f Hn V F|v s b V ->|v s t l V X M].
  1-5: pose proof (filter_read d c inv v s f r R V F A) as E.
  1-4: split; [split; [discriminate|repeat constructor]|]; unfold one_attribute; cbn zeta.
  - cbn [text_eqb T list_ascii_of_string Ascii.eqb Bool.eqb andb]. rewrite E. cbn [pbind fst snd]. eexists. split; [reflexivity|]. now destruct x.
  - cbn [text_eqb T list_ascii_of_string Ascii.eqb Bool.eqb andb]. rewrite E. cbn [pbind fst snd]. eexists. split; [reflexivity|]. now destruct x.
  - cbn [text_eqb T list_ascii_of_string Ascii.eqb Bool.eqb andb]. rewrite E. cbn [pbind fst snd]. eexists. split; [reflexivity|]. now destruct x.
  - cbn [text_eqb T list_ascii_of_string Ascii.eqb Bool.eqb andb]. rewrite E. cbn [pbind fst snd]. eexists. split; [reflexivity|]. now destruct x.
  - split; [destruct Hn as [->| ->]; (split; [discriminate|repeat constructor])|]. unfold one_attribute. cbn zeta.
    destruct Hn as [->| ->]; cbn [text_in existsb text_eqb T list_ascii_of_string Ascii.eqb Bool.eqb andb orb]; rewrite E; cbn [pbind fst snd];
      (eexists; split; [reflexivity|]; now destruct x).
  - split; [split; [discriminate|repeat constructor]|]. unfold one_attribute. cbn zeta.
    cbn [text_eqb T list_ascii_of_string Ascii.eqb Bool.eqb andb]. rewrite (value_read v s r V A). cbn [of_sres pbind fst snd].
    eexists. split; [reflexivity|]. now destruct x.
  - split; [split; [discriminate|repeat constructor]|]. unfold one_attribute. cbn zeta.
    cbn [text_in existsb text_eqb T list_ascii_of_string Ascii.eqb Bool.eqb andb orb]. rewrite (value_read v s r V A). cbn [of_sres pbind fst snd].
    rewrite (rep_expanded d c s t R X). cbn [pbind]. unfold parse_modifier_list. rewrite (r_logical _ _ R).
    rewrite (modifiers_read d t l M _ [] []); [|lia|reflexivity]. cbn [pbind app].
    eexists. split; [reflexivity|]. now destruct x.
Qed.

Lemma attributes_step : forall f c n s (inv : bool) s' r x, word n -> spaces s -> spaces s' -> solid r ->
  attributes_loop regex_ok current_system (S f) c (n ++ s ++ (if inv then ["!"] else []) ++ "=" :: s' ++ r) x =
  (do y <- one_attribute c n inv r x ;;
   let '(x, q) := y in
   let q := skip_space q in
   match skip (T "]") q with
   | Some r => POk (x, r)
   | None => let q := match skip (T ",") q with Some r => r | None => q end in
             match skip_space q with [] => PErr | q => attributes_loop regex_ok current_system f c q x end
   end).
Proof.
  intros f c n s inv s' r x W S0 S1 Sr. cbn [attributes_loop].
  rewrite read_word; [|exact W|].
  - destruct n as [|y n]; [destruct W; easy|]. rewrite skip_solid; [|exact S0|destruct inv; split; reflexivity].
    destruct inv; cbn [app].
    + change (skip (T "!") ("!" :: "=" :: s' ++ r)) with (Some ("=" :: s' ++ r)). cbn iota beta.
      change (skip (T "=") ("=" :: s' ++ r)) with (Some (s' ++ r)). cbn iota beta.
      rewrite skip_solid by assumption. reflexivity.
    + change (skip (T "!") ("=" :: s' ++ r)) with (@None text). cbn iota beta.
      change (skip (T "=") ("=" :: s' ++ r)) with (Some (s' ++ r)). cbn iota beta.
      rewrite skip_solid by assumption. reflexivity.
  - destruct S0 as [|y s Y _]; [destruct inv; reflexivity|now apply space_not_ident].
Qed.

Lemma value_solid : forall d inv n v a r, attribute_says regex_ok current_system d inv n v a -> solid (v ++ r).
Proof.
  assert (V0 : forall v s r, value v s -> solid (v ++ r)).
  { intros v s r H. destruct H as [q s Q _|w W]; [now apply quote_first|now apply word_solid]. }
  assert (V1 : forall d v s r, filter_value d v s -> solid (v ++ r)).
  { intros d v s r H. destruct H as [v s H _|x b _]; [eapply V0; eauto|split; reflexivity]. }
  intros d inv n v a r H. destruct H; eauto.
Qed.
Lemma attributes_solid : forall d r l, attributes regex_ok current_system d r l -> solid r /\ (forall c, In c (firstn 1 r) -> is_ident_char c = true).
Proof.
  assert (G : forall d inv n v a r, attribute_says regex_ok current_system d inv n v a -> solid (n ++ r) /\ (forall c, In c (firstn 1 (n ++ r)) -> is_ident_char c = true)).
  { intros d inv n v a r H. assert (W : word n).
    { destruct H; try (split; [discriminate|repeat constructor]). destruct H as [->| ->]; (split; [discriminate|repeat constructor]). }
    split; [now apply word_solid|]. destruct W as [W F]. destruct F as [|c n C _]; [easy|]. cbn. intros e [<-|[]]. exact C. }
  intros d r l H. destruct H; eapply G; eauto.
Qed.

Lemma attributes_read : forall d c t l, represents d c -> attributes regex_ok current_system d t l ->
  forall f x r, length t < f -> exists x',
  attributes_loop regex_ok current_system f c (t ++ r) x = POk (x', r) /\
  state_of_ctx x' = fold_left with_attribute l (state_of_ctx x) /\ rest_of x' = rest_of x.
Proof.
  intros d c t l R H. induction H as [n s inv s' v s'' a S0 S1 S2 Ha|n s inv s' v sep q a l S0 S1 Sep Ha A H IH]; intros f x r L.
  - destruct f as [|f]; [lia|].
    replace ((n ++ s ++ (if inv then ["!"] else []) ++ "=" :: s' ++ v ++ s'' ++ ["]"]) ++ r)
      with (n ++ s ++ (if inv then ["!"] else []) ++ "=" :: s' ++ (v ++ s'' ++ "]" :: r))
      by (rewrite <- !app_assoc; cbn; now rewrite <- !app_assoc).
    destruct (attribute_read d c inv n v a (s'' ++ "]" :: r) x R Ha) as [W [x' [E [Es Er]]]].
    { destruct S2 as [|y s'' Y _]; [reflexivity|now apply space_not_ident]. }
    rewrite attributes_step; [|assumption..|eapply value_solid; eauto]. rewrite E. cbn [pbind]. cbn zeta.
    rewrite skip_solid by (auto; split; reflexivity). exists x'. split; [reflexivity|]. auto.
  - destruct f as [|f]; [lia|].
    replace ((n ++ s ++ (if inv then ["!"] else []) ++ "=" :: s' ++ v ++ sep ++ q) ++ r)
      with (n ++ s ++ (if inv then ["!"] else []) ++ "=" :: s' ++ (v ++ sep ++ q ++ r))
      by (rewrite <- !app_assoc; cbn; now rewrite <- !app_assoc).
    destruct (attributes_solid d q l H) as [Sq Iq]. destruct q as [|y q]; [easy|].
    destruct (attribute_read d c inv n v a (sep ++ (y :: q) ++ r) x R Ha) as [W [x' [E [Es Er]]]].
    { destruct sep; [exact A|exact A]. }
    rewrite attributes_step; [|assumption..|eapply value_solid; eauto]. rewrite E. cbn [pbind]. cbn zeta.
    assert (Lq : length (y :: q) < f).
    { rewrite !app_length in L. cbn [length] in L. rewrite !app_length in L. lia. }
    destruct (IH f x' r Lq) as [x'' [E2 [Es2 Er2]]]. exists x''.
    assert (Iy : is_ident_char y = true) by (apply Iq; now left).
    assert (N1 : forall k, is_ident_char k = false -> skip [k] ((y :: q) ++ r) = None).
    { intros k Hk. cbn [app skip]. destruct (Ascii.eqb k y) eqn:Ey; [|reflexivity]. apply Ascii.eqb_eq in Ey. congruence. }
    assert (Sq' : forall s0, spaces s0 -> skip_space (s0 ++ (y :: q) ++ r) = (y :: q) ++ r) by (intros s0 Hs; apply skip_solid; assumption).
    assert (Go : attributes_loop regex_ok current_system f c ((y :: q) ++ r) x' = POk (x'', r) /\
                 state_of_ctx x'' = fold_left with_attribute (a :: l) (state_of_ctx x) /\ rest_of x'' = rest_of x).
    { split; [exact E2|]. cbn [fold_left]. rewrite <- Es. split; [exact Es2|]. now rewrite Er2. }
    destruct Sep as [a1 [a2 [T1 [T2 [->| ->]]]]].
    + rewrite <- app_assoc, skip_spaces, Sq' by assumption. change (T "]") with ["]"]. rewrite N1 by reflexivity.
      change (T ",") with [","]. rewrite N1 by reflexivity. pose proof (Sq' [] (Forall_nil _)) as Q0; cbn [app] in Q0; cbn [app]; rewrite Q0. exact Go.
    + rewrite <- app_assoc. cbn [app]. rewrite skip_solid by (auto; split; reflexivity).
      change (skip (T "]") ("," :: a2 ++ y :: q ++ r)) with (@None text). change (skip (T ",") ("," :: a2 ++ y :: q ++ r)) with (Some (a2 ++ y :: q ++ r)).
      cbn iota beta. change (a2 ++ y :: q ++ r) with (a2 ++ (y :: q) ++ r). rewrite Sq' by assumption. exact Go.
Qed.
End Headers.
