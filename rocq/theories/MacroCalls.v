(** Arguments are the texts between the commas, parameters are replaced by them, and
    recursive macros do not expand. *)
From Coq Require Import String Ascii List Arith NArith ZArith Bool Lia.
From Verif Require Import Base Text TextSpec TextProofs ParseSeq Config MacroSpec MacroTokens
  MacroProofs.
Import ListNotations.
Local Open Scope nat_scope.

(** * Arguments *)

Definition string_text (s : text) : Prop :=
  s = [] \/ exists q x, quotes q /\ ~ In q x /\ s = q :: x ++ [q].
Definition neutral (b : bool) (l : list tok) : Prop :=
  (forall n cs, closes (S n) (chars l ++ cs) = closes (S n) cs) /\
  (forall n cur r, (b = true -> 1 <= n) ->
     cut (S n) cur (l ++ r) = cut (S n) (cur ++ render l) r).

Lemma neutral_nil : forall b, neutral b [].
Proof. intros b. split; [reflexivity|]. intros n cur r _. cbn. now rewrite app_nil_r. Qed.

Lemma cut_string : forall n cur s c l, cut n cur ((s, c) :: l) = cut n (cur ++ s) (([], c) :: l).
Proof.
  intros n cur s c l. cbn [cut app]. rewrite app_nil_r, <- !app_assoc. reflexivity.
Qed.

Lemma cut_plain : forall n cur c l, c <> "["%char -> c <> "]"%char ->
  (c <> ","%char \/ n <> 1) -> cut n cur (([], c) :: l) = cut n (cur ++ [c]) l.
Proof.
  intros n cur c l A B C. cbn [cut app].
  destruct (Ascii.eqb_spec c "]") as [E|_]; [easy|].
  destruct (Ascii.eqb_spec c "[") as [E|_]; [easy|].
  destruct (Ascii.eqb_spec c ",") as [E|_]; [|reflexivity].
  destruct (Nat.eqb_spec n 1) as [F|_]; [|reflexivity]. destruct C; easy.
Qed.

Lemma piece_tokens : forall b a, piece true b a ->
  exists l s, a = render l ++ s /\ Forall tok_ok l /\ string_text s /\ neutral b l.
Proof.
  intros b a H. induction H as [b|b c r Q N1 N2 N3 _ IH|b q x r Q N A _ IH|b x r _ IHx _ IHr].
  - exists [], []. repeat split; [constructor|now left|]. apply neutral_nil.
  - destruct IH as [l [s [-> [Hl [Hs [M1 M2]]]]]]. exists (([], c) :: l), s.
    split; [reflexivity|]. split; [|split; [exact Hs|split]].
    + constructor; [|exact Hl]. left. now split.
    + intros n cs. change (chars (([], c) :: l) ++ cs) with (c :: chars l ++ cs). cbn [closes].
      destruct (Ascii.eqb_spec c "]") as [E|_]; [easy|].
      destruct (Ascii.eqb_spec c "[") as [E|_]; [easy|]. apply M1.
    + intros n cur r0 Hn. cbn [app]. rewrite cut_plain; [|exact N1|exact N2|].
      * rewrite M2 by exact Hn. rewrite render_cons, <- app_assoc. reflexivity.
      * destruct b; [right; specialize (Hn eq_refl); lia|left; now apply N3].
  - destruct IH as [l [s [-> [Hl [Hs M]]]]]. specialize (A eq_refl).
    destruct l as [|[s0 c0] l].
    + cbn [render flat_map app] in *. destruct Hs as [->|[q' [y [Q' [_ ->]]]]]; [|now elim A].
      exists [], (q :: x ++ [q]). split; [reflexivity|]. split; [constructor|].
      split; [right; now exists q, x|apply neutral_nil].
    + inversion_clear Hl as [|? ? Ho Hl'].
      destruct Ho as [[E Nq]|[q' [y [Q' [_ E]]]]]; cbn [fst snd] in *; subst s0.
      2:{ now elim A. }
      exists ((q :: x ++ [q], c0) :: l), s. split.
      { rewrite !render_cons. cbn [app]. now rewrite <- !app_assoc. }
      split; [constructor; [right; now exists q, x|exact Hl']|]. split; [exact Hs|].
      destruct M as [M1 M2]. split; [exact M1|]. intros n cur r0 Hn. cbn [app].
      rewrite cut_string. change (([], c0) :: l ++ r0) with ((([], c0) :: l) ++ r0).
      rewrite M2 by exact Hn. rewrite !render_cons. rewrite <- !app_assoc. cbn [app]. now rewrite <- !app_assoc.
  - destruct IHx as [l1 [s1 [-> [H1 [S1 [A1 A2]]]]]].
    destruct IHr as [l2 [s2 [-> [H2 [S2 [B1 B2]]]]]].
    exists (([], "["%char) :: l1 ++ (s1, "]"%char) :: l2), s2. split.
    { rewrite render_cons, render_app, render_cons. cbn [app]. now rewrite <- !app_assoc. }
    split; [|split; [exact S2|split]].
    + constructor; [left; split; [reflexivity|discriminate]|]. apply Forall_app.
      split; [exact H1|]. constructor; [|exact H2].
      destruct S1 as [->|[q [y [Q [N ->]]]]]; [left; split; [reflexivity|discriminate]|].
      right. now exists q, y.
    + intros n cs.
      change (chars (([], "["%char) :: l1 ++ (s1, "]"%char) :: l2) ++ cs)
        with ("["%char :: chars (l1 ++ (s1, "]"%char) :: l2) ++ cs).
      cbn [closes]. change (Ascii.eqb "[" "]") with false. change (Ascii.eqb "[" "[") with true.
      cbn iota. unfold chars. rewrite map_app, <- app_assoc. fold (chars l1).
      rewrite A1. change (map snd ((s1, "]"%char) :: l2) ++ cs) with ("]"%char :: chars l2 ++ cs).
      cbn [closes]. change (Ascii.eqb "]" "]") with true. cbn iota. apply B1.
    + intros n cur r0 Hn. cbn [app cut]. change (Ascii.eqb "[" "]") with false.
      change (Ascii.eqb "[" "[") with true. cbn iota. cbn [app].
      rewrite <- app_assoc. cbn [app]. rewrite A2 by (intros; lia).
      cbn [cut]. change (Ascii.eqb "]" "]") with true. cbn iota. rewrite B2 by exact Hn.
      rewrite render_cons, render_app, render_cons. cbn [app]. now rewrite <- !app_assoc.
Qed.

Lemma string_tok : forall s c, string_text s -> ~ quotes c -> tok_ok (s, c).
Proof.
  intros s c [->|[q [x [Q [N ->]]]]] C; [left; now split|]. right. now exists q, x.
Qed.

Lemma arguments_tokens : forall args, args <> [] -> Forall (argument true) args ->
  exists l, commas args ++ ["]"%char] = render l /\ Forall tok_ok l /\
            closes 1 (chars l) = true /\ cut 1 [] l = map trim args.
Proof.
  induction args as [|a args IH]; intros N H; [easy|]. inversion_clear H as [|? ? Ha Hr].
  destruct (piece_tokens false a Ha) as [l [s [E [Hl [Hs [M1 M2]]]]]].
  destruct args as [|b args].
  - exists (l ++ [(s, "]"%char)]). cbn [commas]. split; [|split; [|split]].
    + rewrite render_app, render_cons, E. now rewrite <- app_assoc.
    + apply Forall_app. split; [exact Hl|]. constructor; [|constructor].
      apply string_tok; [exact Hs|discriminate].
    + unfold chars. rewrite map_app. fold (chars l). now rewrite M1.
    + rewrite M2 by discriminate. cbn [cut app map]. change (Ascii.eqb "]" "]") with true.
      cbn iota. now rewrite <- E.
  - destruct IH as [l2 [E2 [H2 [C2 K2]]]]; [discriminate|exact Hr|].
    exists (l ++ (s, ","%char) :: l2). split; [|split; [|split]].
    + change (commas (a :: b :: args)) with (a ++ ","%char :: commas (b :: args)).
      rewrite render_app, render_cons, E, <- !app_assoc. cbn [app]. now rewrite <- E2.
    + apply Forall_app. split; [exact Hl|]. constructor; [|exact H2].
      apply string_tok; [exact Hs|discriminate].
    + unfold chars. rewrite map_app. fold (chars l). rewrite M1. exact C2.
    + rewrite M2 by discriminate. cbn [cut app]. change (Ascii.eqb "," "]") with false.
      change (Ascii.eqb "," "[") with false. change (Ascii.eqb "," "," && (1 =? 1)) with true.
      cbn iota. rewrite K2, <- E. reflexivity.
Qed.

Theorem arguments_split : forall args, args <> [] -> Forall (argument true) args ->
  get_argument_list (arglist args) = POk (map trim args).
Proof.
  intros args N H. destruct (arguments_tokens args N H) as [l [E [Hl [C K]]]].
  unfold arglist, get_argument_list. rewrite E, <- K.
  apply (argument_loop_cut _ l []); [exact Hl|exact C|cbn; lia].
Qed.

Theorem arglist_found : forall args r, args <> [] -> Forall (argument true) args ->
  Forall (fun c => ~ quotes c) r ->
  skip_arglist (arglist args ++ r) = SOk (Some r).
Proof.
  intros args r N H R. destruct (arguments_tokens args N H) as [l [E [Hl [C K]]]].
  unfold arglist. rewrite E. cbn [app]. apply skip_arglist_complete; [exact Hl|exact C|].
  set (toks := map (fun c => ([], c) : tok) r).
  assert (X : r = render toks).
  { unfold toks. clear. induction r as [|c r IH]; [reflexivity|]. cbn [map].
    rewrite render_cons. cbn [app]. now rewrite <- IH. }
  assert (Y : Forall tok_ok toks).
  { unfold toks. clear - R. induction R as [|c r Hc _ IH]; constructor; [|exact IH].
    left. now split. }
  rewrite X. destruct (nis_render "["%char toks Y) as [[O _]|[a' [s' [b' [_ [_ O]]]]]];
    rewrite O; discriminate.
Qed.

Lemma drop_space_spec : forall t, exists x, t = x ++ drop_space t /\
  Forall (fun c => is_space c = true) x /\
  match drop_space t with [] => True | c :: _ => is_space c = false end.
Proof.
  induction t as [|c t [x [E [F G]]]]; [now exists []|]. cbn [drop_space].
  destruct (is_space c) eqn:S.
  - exists (c :: x). split; [cbn; now rewrite <- E|]. split; [now constructor|exact G].
  - exists []. split; [reflexivity|]. now split.
Qed.

Lemma last_app_one : forall (A : Type) (l : list A) x d, last (l ++ [x]) d = x.
Proof. intros A l x d. apply last_last. Qed.

Lemma trim_trimmed : forall t, trimmed t (trim t).
Proof.
  intros t. unfold trim, trim_space. destruct (drop_space_spec t) as [x [E [F G]]].
  set (u := drop_space t) in *. destruct (drop_space_spec (rev u)) as [y [E' [F' G']]].
  set (v := drop_space (rev u)) in *.
  assert (U : u = rev v ++ rev y).
  { rewrite <- rev_app_distr, <- E'. now rewrite rev_involutive. }
  exists x, (rev y). split; [now rewrite <- U|]. split.
  - apply Forall_app. split; [exact F|]. now apply Forall_rev.
  - destruct v as [|d v]; [exact I|]. cbn [rev]. destruct (rev v ++ [d]) as [|c w] eqn:W.
    + now destruct (rev v).
    + split.
      * rewrite U in G. cbn [rev] in G. rewrite W in G. exact G.
      * rewrite <- W, last_app_one. exact G'.
Qed.

(** * Parameters *)

Lemma unquote_unquoted : forall a, unquoted a (unquote a).
Proof.
  intros [|c r].
  - apply unquoted_other. discriminate.
  - cbn [unquote]. destruct (rev r) as [|d m] eqn:R.
    + apply unquoted_other. intros q s Q E. injection E as _ E. rewrite E in R.
      rewrite rev_app_distr in R. discriminate.
    + assert (Er : r = rev m ++ [d]).
      { rewrite <- (rev_involutive r), R. reflexivity. }
      destruct (Ascii.eqb_spec c d) as [E|E].
      * destruct (is_quote c) eqn:Q; cbn [andb].
        -- subst. now apply unquoted_string.
        -- apply unquoted_other. intros q s Hq F. injection F as -> F. unfold quotes in Hq.
           now rewrite Q in Hq.
      * cbn [andb]. apply unquoted_other. intros q s Hq F. injection F as -> F.
        rewrite Er in F. apply app_inj_tail in F. destruct F as [_ F]. congruence.
Qed.

Lemma number_cons : forall c d n,
  fold_left (fun n c => n * 10 + digit_value c)%Z (c :: d) n =
  fold_left (fun n c => n * 10 + digit_value c)%Z d (n * 10 + digit_value c)%Z.
Proof. reflexivity. Qed.

Lemma read_number_digits : forall d r n, Forall (fun c => is_digit c = true) d ->
  match r with c :: _ => is_digit c = false | [] => True end -> (0 <= n)%Z ->
  (fold_left (fun n c => n * 10 + digit_value c) d n <= int_max)%Z ->
  read_number (d ++ r) n false =
  (fold_left (fun n c => n * 10 + digit_value c)%Z d n, false, r).
Proof.
  induction d as [|c d IH]; intros r n F R N B.
  - cbn [app fold_left]. destruct r as [|c r]; [reflexivity|]. cbn [read_number]. now rewrite R.
  - inversion_clear F as [|? ? Hc Fd]. cbn [app read_number]. rewrite Hc. cbn [orb].
    pose proof (digit_nonneg c Hc) as D. rewrite number_cons in *.
    assert (G : (n * 10 + digit_value c <=
                 fold_left (fun n c => n * 10 + digit_value c) d (n * 10 + digit_value c))%Z).
    { clear - Fd D N. assert (P : (0 <= n * 10 + digit_value c)%Z) by lia. revert P.
      generalize (n * 10 + digit_value c)%Z. induction Fd as [|e d He _ IH]; intros z P; [cbn; lia|].
      cbn [fold_left]. pose proof (digit_nonneg e He). specialize (IH (z * 10 + digit_value e)%Z).
      lia. }
    destruct (Z.ltb_spec int_max (n * 10 + digit_value c)) as [X|X]; [lia|].
    apply IH; [exact Fd|exact R|lia|exact B].
Qed.

Lemma try_read_digits : forall d r, d <> [] -> Forall (fun c => is_digit c = true) d ->
  match r with c :: _ => is_digit c = false | [] => True end -> (number d <= int_max)%Z ->
  try_read_number (d ++ r) = Some (number d, false, r).
Proof.
  intros [|c d] r N F R B; [easy|]. inversion_clear F as [|? ? Hc Fd].
  unfold try_read_number. cbn [app]. rewrite Hc.
  change (c :: d ++ r) with ((c :: d) ++ r). rewrite read_number_digits; [reflexivity| |exact R|lia|exact B].
  now constructor.
Qed.

Lemma digit_char : forall n, (n < 10)%N -> is_digit (ascii_of_N (48 + n)) = true /\
  digit_value (ascii_of_N (48 + n)) = Z.of_N n.
Proof.
  intros n H. assert (X : code (ascii_of_N (48 + n)) = (48 + n)%N).
  { unfold code. apply N_ascii_embedding. lia. }
  unfold is_digit, in_codes, digit_value. rewrite X. split; [|lia].
  apply andb_true_iff. split; apply N.leb_le; lia.
Qed.

Lemma digits_decimal : forall f n acc, (n < 10 ^ N.of_nat f)%N -> (f <> 0)%nat ->
  exists d, digits f n acc = d ++ acc /\ d <> [] /\ Forall (fun c => is_digit c = true) d /\
            number d = Z.of_N n /\ (n <> 0%N -> match d with c :: _ => c <> "0"%char | [] => True end) /\
            match d with c :: _ :: _ => c <> "0"%char | _ => True end.
Proof.
  induction f as [|f IH]; intros n acc B F; [easy|]. cbn [digits].
  destruct (digit_char (n mod 10)) as [D V]; [apply N.mod_lt; lia|].
  set (c := ascii_of_N (48 + n mod 10)) in *.
  destruct (N.eqb_spec (n / 10) 0) as [E|E].
  - exists [c]. split; [reflexivity|]. split; [discriminate|]. split; [now constructor|].
    split; [unfold number; cbn [fold_left]; rewrite V; pose proof (N.div_mod n 10 ltac:(lia)); lia|].
    split; [|exact I]. intros N0 X. rewrite X in V. pose proof (N.div_mod n 10 ltac:(lia)).
    change (digit_value "0") with 0%Z in V. lia.
  - assert (B' : (n / 10 < 10 ^ N.of_nat f)%N).
    { apply N.div_lt_upper_bound; [lia|]. rewrite Nnat.Nat2N.inj_succ, N.pow_succ_r' in B. lia. }
    destruct f as [|f].
    + exfalso. change (10 ^ N.of_nat 0)%N with 1%N in B'. apply N.lt_1_r in B'. now apply E.
    + destruct (IH (n / 10)%N (c :: acc) B' ltac:(lia)) as [d [-> [N [Fd [Vd [Hd _]]]]]].
      exists (d ++ [c]). split; [now rewrite <- app_assoc|]. split; [now destruct d|].
      split; [apply Forall_app; split; [exact Fd|now constructor]|].
      split.
      { unfold number. rewrite fold_left_app. fold (number d). rewrite Vd. cbn [fold_left].
        rewrite V. pose proof (N.div_mod n 10 ltac:(lia)). lia. }
      specialize (Hd E). destruct d as [|x d]; [easy|]. cbn [app]. split; [now intros _|]. now destruct (d ++ [c]).
Qed.

Lemma to_string_decimal : forall n, (N.of_nat n < 10 ^ 40)%N -> decimal n (to_string_N (N.of_nat n)).
Proof.
  intros n B. unfold to_string_N.
  destruct (digits_decimal 40 (N.of_nat n) [] B) as [d [-> [N [F [V [_ H]]]]]]; [lia|].
  rewrite app_nil_r. split; [exact N|]. split; [exact F|]. split; [rewrite V; lia|exact H].
Qed.

Lemma skip_until_dollar : forall t r, ~ In "$"%char t ->
  skip_until (T "$") (t ++ "$"%char :: r) = Some r.
Proof. intros t r N. now apply skip_until_char. Qed.
Lemma skip_until_none : forall t, ~ In "$"%char t -> skip_until (T "$") t = None.
Proof.
  induction t as [|c t IH]; intros N; [reflexivity|].
  cbn [skip_until]. change (T "$") with ["$"%char]. cbn [skip].
  destruct (Ascii.eqb_spec "$" c) as [E|E]; [elim N; now left|]. apply IH. intros F. apply N. now right.
Qed.

Lemma unfold_substitute : forall f args it, it <> [] -> substitute_loop (S f) args it =
  match skip_until (T "$") it with
  | None => POk it
  | Some r =>
      let pre := removelast (before it r) in
      match try_read_number r with
      | Some (n, ub, q) =>
          if ub then PUB
          else
            do rest <- substitute_loop f args q ;;
            POk (pre ++ (if (n <? Z.of_nat (length args))%Z
                         then unquote (nth (Z.to_nat n) args []) else []) ++ rest)
      | None =>
          match skip (T "$") r with
          | Some q =>
              do rest <- substitute_loop f args q ;;
              POk (pre ++ to_string_N (N.of_nat (length args)) ++ rest)
          | None =>
              do rest <- substitute_loop f args r ;;
              POk (pre ++ T "$" ++ rest)
          end
      end
  end.
Proof. intros f args [|c it] N; [easy|reflexivity]. Qed.

Lemma substitute_parts : forall args, (N.of_nat (length args) < 10 ^ 40)%N ->
  forall ps lit f, ~ In "$"%char lit -> parts_ok ps -> length (lit ++ body_text ps) < f ->
  exists rs, Forall2 (instance args) ps rs /\
             substitute_loop f args (lit ++ body_text ps) = POk (lit ++ concat rs).
Proof.
  intros args B. induction ps as [|p ps IH]; intros lit f Nl Ok L.
  - exists []. split; [constructor|]. cbn [body_text flat_map concat] in *. rewrite app_nil_r in *.
    destruct f as [|f]; [lia|]. destruct lit as [|c lit]; [reflexivity|].
    rewrite unfold_substitute by discriminate. now rewrite skip_until_none.
  - destruct Ok as [Op Or]. change (body_text (p :: ps)) with (part_text p ++ body_text ps) in *.
    destruct p as [t|d| |]; cbn [part_text] in *.
    + rewrite app_assoc in *. destruct (IH (lit ++ t) f) as [rs [Hrs E]]; [|exact Or|exact L|].
      { intros F. apply in_app_or in F. now destruct F. }
      exists (t :: rs). split; [now constructor|]. rewrite E. cbn [concat]. now rewrite <- app_assoc.
    + destruct Op as [Nd [Fd [Bd Rd]]]. destruct f as [|f]; [lia|].
      rewrite unfold_substitute by now destruct lit.
      cbn [app] in *. rewrite skip_until_dollar by exact Nl.
      rewrite try_read_digits by assumption. cbn zeta iota.
      destruct (IH [] f) as [rs [Hrs E]]; [easy|exact Or| |].
      { cbn [app]. rewrite !app_length in L. cbn [length] in L. rewrite app_length in L. lia. }
      cbn [app] in E. rewrite E. cbn [pbind].
      set (v := if (number d <? Z.of_nat (length args))%Z
                then unquote (nth (Z.to_nat (number d)) args []) else []).
      exists (v :: rs). split.
      * constructor; [|exact Hrs]. cbn [instance]. unfold v.
        pose proof (try_read_number_app (d ++ []) (number d) false []) as P.
        rewrite try_read_digits in P by (assumption || exact I).
        destruct (P eq_refl) as [_ [_ [_ [_ [_ [_ P0]]]]]].
        destruct (Z.ltb_spec (number d) (Z.of_nat (length args))) as [X|X].
        -- destruct (nth_error args (Z.to_nat (number d))) as [a|] eqn:G.
           ++ rewrite (nth_error_nth _ _ _ G). apply unquote_unquoted.
           ++ apply nth_error_None in G. lia.
        -- replace (nth_error args (Z.to_nat (number d))) with (@None text); [reflexivity|].
           symmetry. apply nth_error_None. lia.
      * apply f_equal. cbn [concat].
        replace (lit ++ "$"%char :: d ++ body_text ps)
          with ((lit ++ ["$"%char]) ++ (d ++ body_text ps)) by now rewrite <- app_assoc.
        now rewrite before_app, removelast_last.
    + destruct f as [|f]; [lia|]. rewrite unfold_substitute by now destruct lit.
      cbn [app] in *. rewrite skip_until_dollar by exact Nl.
      change (try_read_number ("$"%char :: body_text ps)) with (@None (Z * bool * text)).
      change (skip (T "$") ("$"%char :: body_text ps)) with (Some (body_text ps)). cbn iota zeta.
      destruct (IH [] f) as [rs [Hrs E]]; [easy|exact Or| |].
      { cbn [app]. rewrite !app_length in L. cbn [length] in L. lia. }
      cbn [app] in E. rewrite E. cbn [pbind].
      exists (to_string_N (N.of_nat (length args)) :: rs). split.
      * constructor; [|exact Hrs]. now apply to_string_decimal.
      * apply f_equal. cbn [concat].
        replace (lit ++ "$"%char :: "$"%char :: body_text ps)
          with ((lit ++ ["$"%char]) ++ ("$"%char :: body_text ps)) by now rewrite <- app_assoc.
        now rewrite before_app, removelast_last.
    + destruct f as [|f]; [lia|]. rewrite unfold_substitute by now destruct lit.
      cbn [app] in *. rewrite skip_until_dollar by exact Nl.
      assert (X : try_read_number (body_text ps) = None).
      { destruct (body_text ps) as [|c r]; [reflexivity|]. destruct Op as [Op _].
        unfold try_read_number. now rewrite Op. }
      assert (Y : skip (T "$") (body_text ps) = None).
      { destruct (body_text ps) as [|c r]; [reflexivity|]. destruct Op as [_ Op].
        change (T "$") with ["$"%char]. cbn [skip].
        destruct (Ascii.eqb_spec "$" c) as [F|F]; [now subst|reflexivity]. }
      rewrite X, Y. cbn zeta.
      destruct (IH [] f) as [rs [Hrs E]]; [easy|exact Or| |].
      { cbn [app]. rewrite !app_length in L. cbn [length] in L. lia. }
      cbn [app] in E. rewrite E. cbn [pbind]. exists (["$"%char] :: rs). split.
      * constructor; [reflexivity|exact Hrs].
      * apply f_equal. cbn [concat].
        replace (lit ++ "$"%char :: body_text ps)
          with ((lit ++ ["$"%char]) ++ body_text ps) by now rewrite <- app_assoc.
        now rewrite before_app, removelast_last.
Qed.

(** * Recursive macros *)

Lemma read_ident_word : forall i r, Forall (fun c => is_ident_char c = true) i ->
  match r with c :: _ => is_ident_char c = false | [] => True end ->
  read_ident (i ++ r) = (i, r).
Proof.
  induction i as [|c i IH]; intros r F R.
  - cbn [app]. destruct r as [|c r]; [reflexivity|]. cbn [read_ident]. now rewrite R.
  - inversion_clear F as [|? ? Hc Fi]. cbn [app read_ident]. rewrite Hc.
    now rewrite (IH r Fi R).
Qed.

Lemma words_no_bracket : forall t l, words t l -> skip_arglist t = SOk None.
Proof.
  intros t l H. unfold skip_arglist. change (T "[") with ["["%char].
  destruct H as [|c r l [_ [_ [_ [_ [N _]]]]] _|i r l N F _ _]; cbn [skip].
  - reflexivity.
  - destruct (Ascii.eqb_spec "[" c) as [E|_]; [now subst|reflexivity].
  - destruct i as [|c i]; [easy|]. cbn [app]. inversion_clear F as [|? ? Hc _].
    destruct (Ascii.eqb_spec "[" c) as [E|_]; [now subst|reflexivity].
Qed.

Section Level.
Variable m : macros.
Variable pp : text -> pres text.

(** A word which does not expand *)
Lemma loop_word : forall b n f t l, words t l -> In n l -> (forall x, pp n <> POk x) ->
  forall x, preprocess_loop m pp f b t <> POk x.
Proof.
  intros b n f t l W. revert f. induction W as [|c r l C _ IH|i r l Ni Fi Sr W IH];
    intros f Hn Hp x; [easy| |]; (destruct f as [|f]; [discriminate|]).
  - destruct C as [C1 [C2 [C3 [C4 [C5 C6]]]]]. cbn [preprocess_loop read_ident]. rewrite C1.
    unfold quotes in C2.
    assert (X : skip_string (c :: r) = SOk None) by (cbn; now destruct (is_quote c)).
    assert (Y : skip_terminal_command (c :: r) = SOk None).
    { unfold skip_terminal_command. change (T "$(") with ["$"%char; "("%char]. cbn [skip].
      destruct (Ascii.eqb_spec "$" c) as [E|_]; [now subst|reflexivity]. }
    assert (Z : skip_regular_expression (c :: r) = SOk None).
    { unfold skip_regular_expression. change (T "/") with ["/"%char]. cbn [skip].
      destruct (Ascii.eqb_spec "/" c) as [E|_]; [now subst|reflexivity]. }
    rewrite X, Y, Z. cbn [of_sres pbind]. rewrite C6.
    destruct (preprocess_loop m pp f b r) as [y| | |] eqn:E; try discriminate.
    now elim (IH f Hn Hp y).
  - destruct i as [|c i]; [easy|]. cbn [app] in *.
    assert (R : read_ident (c :: i ++ r) = (c :: i, r)) by now apply (read_ident_word (c :: i)).
    cbn [preprocess_loop]. rewrite R. rewrite (words_no_bracket r l W). cbn [of_sres pbind].
    destruct Hn as [<-|Hn].
    + destruct (pp (c :: i)) as [y| | |] eqn:E; try discriminate. now elim (Hp y).
    + destruct (pp (c :: i)) as [y| | |]; try discriminate. cbn [pbind].
      destruct (preprocess_loop m pp f b r) as [z| | |] eqn:E; try discriminate.
      now elim (IH f Hn Hp z).
Qed.
End Level.

Lemma skip_space_words : forall t l, words t l -> words (skip_space t) l.
Proof.
  intros t l W. induction W as [|c r l C W IH|i r l Ni Fi Sr W IH].
  - constructor.
  - cbn [skip_space]. destruct (is_space c); [exact IH|]. destruct C as [C1 [C2 [C3 [C4 [C5 C6]]]]].
    rewrite C6. constructor; [repeat split; assumption|exact W].
  - destruct i as [|c i]; [easy|]. cbn [app skip_space]. inversion_clear Fi as [|? ? Hc Fi'].
    assert (S : is_space c = false /\ is_comment_char c = false).
    { clear - Hc. destruct c as [[] [] [] [] [] [] [] []]; vm_compute in Hc |- *; now split. }
    destruct S as [S1 S2]. rewrite S1, S2. change (c :: i ++ r) with ((c :: i) ++ r).
    constructor; [discriminate|now constructor|exact Sr|exact W].
Qed.

Lemma words_nil_inv : forall l, words [] l -> l = [].
Proof.
  intros l W. remember (@nil ascii) as t eqn:Et. destruct W as [|c r l C W|i r l Ni Fi Sr W].
  - reflexivity.
  - discriminate.
  - apply app_eq_nil in Et. now destruct Et.
Qed.

(** A set of macros each of which uses another one of the set does not expand. *)
Theorem recursive_fails : forall m (R : text -> Prop),
  (forall n, R n -> exists v l n', find_macro m n = Some v /\ words v l /\ In n' l /\ R n') ->
  (forall n, R n -> n <> [] /\ Forall (fun c => is_ident_char c = true) n) ->
  forall level,
  (forall n, R n -> forall x, preprocess_str m level n <> POk x) /\
  (forall t l n, words t l -> In n l -> R n -> forall x, preprocess_str m level t <> POk x).
Proof.
  intros m R H I. induction level as [|level [IH1 IH2]]; [split; discriminate|].
  assert (A : forall n, R n -> forall x, preprocess_str m (S level) n <> POk x).
  { intros n Rn x. destruct (I n Rn) as [N F]. cbn [preprocess_str].
    pose proof (read_ident_word n [] F Logic.I) as E. rewrite app_nil_r in E. rewrite E.
    destruct n as [|c n]; [easy|].
    destruct (H (c :: n) Rn) as [v [l [n' [Ev [W [Hn' Rn']]]]]]. rewrite Ev.
    eapply IH2; eassumption. }
  split; [exact A|]. intros t l n W Hn Rn x.
  assert (B : forall x, preprocess_range m (preprocess_str m level) true t <> POk x).
  { intros y. unfold preprocess_range.
    apply (loop_word m _ true n _ _ l); [now apply skip_space_words|exact Hn|now apply IH1]. }
  destruct (read_ident t) as [[|c i] [|d q]] eqn:E; cbn [preprocess_str]; rewrite E; try apply B.
  (* the whole text is one identifier *)
  assert (T1 : t = n).
  { pose proof (read_ident_app _ _ _ E) as Et. rewrite app_nil_r in Et.
    inversion W as [Ew|c0 r l0 C0 _ Ew|i0 r l0 N0 F0 S0 W0 Ew]; subst.
    - discriminate.
    - exfalso. destruct C0 as [C0 _]. cbn [read_ident] in E. rewrite C0 in E. discriminate.
    - rewrite <- Ew in E. rewrite (read_ident_word i0 r F0 S0) in E. injection E as E Er. subst.
      rewrite (words_nil_inv _ W0) in Hn. destruct Hn as [Hn|[]]. rewrite <- Hn. apply app_nil_r. }
  subst t. specialize (A n Rn x). cbn [preprocess_str] in A. now rewrite E in A.
Qed.

(** * Without calls nothing is undefined *)

Definition defined {A} (r : pres A) : Prop :=
  match r with POk _ => True | PErr => True | PUB => False | PFuel => False end.
Lemma defined_bind : forall A B (m : pres A) (f : A -> pres B),
  defined m -> (forall a, m = POk a -> defined (f a)) -> defined (pbind m f).
Proof. intros A B [a| | |] f H K; cbn in *; auto. Qed.
Lemma defined_sres : forall A B (m : sres A) (f : A -> pres B),
  (forall a, m = SOk a -> defined (f a)) -> defined (pbind (of_sres m) f).
Proof. intros A B [a|] f H; [now apply H|exact I]. Qed.

Definition no_call (t : text) : Prop := ~ In "["%char t.
Lemma no_call_suffix : forall a b, suffix a b -> no_call b -> no_call a.
Proof. intros a b [x ->] H F. apply H, in_or_app. now right. Qed.
Lemma no_call_before : forall a b, suffix b a -> no_call a -> no_call (before a b).
Proof.
  intros a b [x ->] H F. rewrite before_app in F. apply H, in_or_app. now left.
Qed.
Lemma no_call_arglist : forall t, no_call t -> skip_arglist t = SOk None.
Proof.
  intros t H. destruct (skip_arglist t) as [[q|]|] eqn:E; [|reflexivity|].
  - apply skip_arglist_sound in E. destruct E as [l [-> _]]. destruct H. now left.
  - destruct t as [|c t]; [discriminate|]. unfold skip_arglist in E.
    destruct (skip (T "[") (c :: t)) as [q|] eqn:G; [|discriminate].
    apply skip_app in G. destruct H. rewrite G. now left.
Qed.

Section NoCalls.
Variable m : macros.
Variable pp : text -> pres text.
Hypothesis pp_defined : forall t, no_call t -> defined (pp t).

Lemma variables_defined : forall t, no_call t -> defined (substitute_variables m pp t).
Proof.
  intros t Nt. unfold substitute_variables.
  assert (K : forall f it, length it < f -> no_call it -> defined (substitute_variables_loop m pp f it)).
  { induction f as [|f IH]; intros it L Ni; [lia|]. cbn [substitute_variables_loop].
    destruct (skip_until (T "$") it) as [r|] eqn:F; [|exact I].
    apply skip_until_later in F; [|discriminate].
    pose proof (no_call_suffix _ _ (later_suffix _ _ F) Ni) as Nr. apply later_length in F.
    assert (X : exists b r1, match skip (T "{") r with
                             | Some q => (true, q) | None => (false, r) end = (b, r1)
                             /\ suffix r1 r).
    { destruct (skip (T "{") r) as [q|] eqn:G; [exists true, q|exists false, r];
        (split; [reflexivity|]); [now apply skip_suffix in G|apply suffix_refl]. }
    destruct X as [b [r1 [X Y]]]. rewrite X.
    pose proof (no_call_suffix _ _ Y Nr) as N1. apply suffix_length in Y.
    destruct (read_ident r1) as [i r2] eqn:R. pose proof (read_ident_app _ _ _ R) as Ra.
    assert (Nn : no_call i /\ no_call r2).
    { rewrite Ra in N1. split; intros Z; apply N1, in_or_app; [now left|now right]. }
    destruct Nn as [Nn N2].
    apply read_ident_suffix, suffix_length in R.
    assert (Z : exists c r3, (if b then match skip (T "}") r2 with
                                        | Some q => (true, q) | None => (false, r2) end
                              else (true, r2)) = (c, r3) /\ suffix r3 r2).
    { destruct b; [|exists true, r2; split; [reflexivity|apply suffix_refl]].
      destruct (skip (T "}") r2) as [q|] eqn:G; [exists true, q|exists false, r2];
        (split; [reflexivity|]); [now apply skip_suffix in G|apply suffix_refl]. }
    destruct Z as [c [r3 [Z W]]]. rewrite Z.
    pose proof (no_call_suffix _ _ W N2) as N3. apply suffix_length in W.
    assert (E : defined (substitute_variables_loop m pp f r3)) by (apply IH; [lia|exact N3]).
    destruct c; [|now apply defined_bind].
    destruct (find_macro m i); [|now apply defined_bind].
    apply defined_bind; [now apply pp_defined|]. intros v _. now apply defined_bind. }
  apply K; [lia|exact Nt].
Qed.

Lemma range_defined : forall b t, no_call t -> defined (preprocess_range m pp b t).
Proof.
  intros b t Nt. unfold preprocess_range.
  apply (no_call_suffix _ _ (skip_space_suffix t)) in Nt. revert Nt.
  generalize (skip_space t). clear t. intros t Nt.
  assert (K : forall f it, length it < f -> no_call it -> defined (preprocess_loop m pp f b it)).
  { induction f as [|f IH]; intros it L Ni; [lia|]. cbn [preprocess_loop].
    destruct it as [|c r]; [exact I|].
    destruct (read_ident (c :: r)) as [ident q] eqn:R.
    destruct ident as [|i0 ident].
    - apply defined_sres. intros s Hs.
      assert (X : defined
                    match s with
                    | Some _ => POk s
                    | None => do s0 <- of_sres (skip_terminal_command (c :: r));;
                              match s0 with
                              | Some _ => POk s0
                              | None => of_sres (skip_regular_expression (c :: r))
                              end
                    end).
      { destruct s as [q'|]; [exact I|]. apply defined_sres. intros [q'|] G; [exact I|].
        now destruct (skip_regular_expression (c :: r)). }
      apply defined_bind; [exact X|]. clear X. intros [q'|] Q.
      + assert (Lq : later q' (c :: r)).
        { destruct s as [q''|]; [injection Q as ->; now apply skip_string_later|].
          destruct (skip_terminal_command (c :: r)) as [[q''|]|] eqn:G; cbn in Q; [| |discriminate].
          - injection Q as ->. now apply skip_terminal_later.
          - destruct (skip_regular_expression (c :: r)) as [[q''|]|] eqn:G'; cbn in Q; try discriminate.
            injection Q as ->. now apply skip_regex_later. }
        apply defined_bind.
        * apply variables_defined. apply no_call_before; [|exact Ni]. now apply later_suffix.
        * intros x _. apply defined_bind; [|intros; exact I]. apply IH.
          -- apply later_length in Lq. lia.
          -- apply (no_call_suffix _ _ (later_suffix _ _ Lq) Ni).
      + destruct (is_comment_char c); [exact I|].
        apply defined_bind; [|intros; exact I]. apply IH; [cbn in L; lia|].
        apply (no_call_suffix r (c :: r)); [apply suffix_cons, suffix_refl|exact Ni].
    - pose proof (read_ident_app _ _ _ R) as Ra. apply read_ident_later, later_length in R.
      rewrite Ra in Ni.
      assert (Nq : no_call q) by (intros Z; apply Ni, in_or_app; now right).
      assert (Nn : no_call (i0 :: ident)) by (intros Z; apply Ni, in_or_app; now left).
      rewrite no_call_arglist by exact Nq. cbn [of_sres pbind].
      apply defined_bind; [now apply pp_defined|]. intros v _.
      apply defined_bind; [|intros; exact I]. apply IH; [lia|exact Nq]. }
  apply K; [lia|exact Nt].
Qed.
End NoCalls.

Theorem no_calls_defined : forall m, (forall n v, find_macro m n = Some v -> no_call v) ->
  forall level t, no_call t -> defined (preprocess_str m level t).
Proof.
  intros m H. induction level as [|l IH]; intros t Nt; [exact I|]. cbn [preprocess_str].
  destruct (read_ident t) as [[|c i] [|d q]]; try now apply range_defined.
  destruct (find_macro m t) eqn:F; [|exact I]. apply IH. eapply H; eassumption.
Qed.

(** * A whole call *)

Lemma no_variable : forall b t, piece true b t -> ~ In "$"%char t -> contains_variable t = POk false.
Proof.
  intros b t H N. destruct (piece_tokens b t H) as [l [s [-> [Hl [Hs _]]]]].
  unfold contains_variable. cbn [variable_loop]. change (T "$") with ["$"%char].
  rewrite nis_app; [|exact Hl|].
  - destruct Hs as [->|[q [x [Q [Nq ->]]]]]; [reflexivity|]. rewrite nis_eq.
    assert (E : nis_next (q :: x ++ [q]) = SOk []).
    { cbn [nis_next]. unfold quotes in Q. rewrite Q.
      pose proof (skip_until_char q x [] Nq) as F. now rewrite F. }
    now rewrite E.
  - apply Forall_forall. intros [s0 c] Hi E. cbn in E. subst c. apply N.
    apply in_or_app. left. unfold render. apply in_flat_map. exists (s0, "$"%char).
    split; [exact Hi|]. cbn. apply in_or_app. right. now left.
Qed.

Lemma ident_no_space : forall c, is_ident_char c = true ->
  is_space c = false /\ is_comment_char c = false.
Proof. intros [[] [] [] [] [] [] [] []]; vm_compute; intros H; try discriminate H; now split. Qed.

Lemma map_res_Forall2 : forall A B (f : A -> pres B) l v,
  Forall2 (fun a b => f a = POk b) l v -> map_res f l = POk v.
Proof.
  intros A B f l v H. induction H as [|a b l v E _ IH]; [reflexivity|]. cbn [map_res].
  rewrite E, IH. reflexivity.
Qed.

Theorem macro_call : forall m level name args vals ps,
  name <> [] -> Forall (fun c => is_ident_char c = true) name ->
  args <> [] -> Forall (argument true) args ->
  Forall2 (fun a v => preprocess_str m level (trim a) = POk v) args vals ->
  find_macro m name = Some (body_text ps) -> parts_ok ps -> (N.of_nat (length vals) < 10 ^ 40)%N ->
  exists rs, Forall2 (instance vals) ps rs /\
    forall b, piece true b (concat rs) -> ~ In "$"%char (concat rs) ->
    preprocess_str m (S level) (name ++ arglist args) = preprocess_str m level (concat rs).
Proof.
  intros m level name args vals ps Nn In_ Na Ha V F Ok B.
  destruct (substitute_parts vals B ps [] (S (length (body_text ps)))) as [rs [I0 S0]];
    [easy|exact Ok|cbn; lia|].
  exists rs. split; [exact I0|]. intros b P D. cbn [app] in S0.
  assert (R : read_ident (name ++ arglist args) = (name, arglist args)).
  { rewrite read_ident_word; [|exact In_|reflexivity]. reflexivity. }
  cbn [preprocess_str]. rewrite R. destruct name as [|c name]; [easy|].
  change (arglist args) with ("["%char :: commas args ++ ["]"%char]).
  unfold preprocess_range.
  assert (Sp : skip_space ((c :: name) ++ "["%char :: commas args ++ ["]"%char])
               = (c :: name) ++ "["%char :: commas args ++ ["]"%char]).
  { cbn [app skip_space]. inversion_clear In_ as [|? ? X _]. destruct (ident_no_space c X) as [-> ->]. reflexivity. }
  rewrite Sp. clear Sp. cbn [preprocess_loop]. change ((c :: name) ++ "["%char :: commas args ++ ["]"%char])
    with ((c :: name) ++ arglist args).
  rewrite R. cbn [app].
  rewrite <- (app_nil_r (arglist args)) at 1.
  rewrite arglist_found; [|exact Na|exact Ha|constructor]. cbn [of_sres pbind].
  assert (Bf : before (arglist args) [] = arglist args).
  { rewrite <- (app_nil_r (arglist args)) at 1. apply before_app. }
  rewrite Bf, arguments_split by assumption. cbn [pbind].
  rewrite (map_res_Forall2 _ _ _ (map trim args) vals).
  2:{ clear -V. induction V; constructor; assumption. }
  cbn [pbind]. rewrite F. unfold substitute_arguments. rewrite S0. cbn [pbind].
  rewrite (no_variable b) by assumption. cbn [pbind].
  change (skip_arglists []) with (SOk (A := text) []). cbn [of_sres pbind].
  change (before [] []) with (@nil ascii). rewrite app_nil_r.
  destruct (preprocess_str m level (concat rs)) as [x| | |]; try reflexivity. cbn [pbind].
  cbn [length]. cbn [preprocess_loop pbind]. now rewrite app_nil_r.
Qed.
