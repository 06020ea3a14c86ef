(** Builtin macros and calls (see ExpandSpec.v). *)
From Coq Require Import String Ascii List Arith NArith ZArith Bool Lia.
From Verif Require Import Base Text TextSpec TextProofs ParseSeq Config
  MacroSpec MacroTokens MacroProofs MacroCalls ExprSpec ExpandSpec.
Import ListNotations.
Local Open Scope char_scope.
Local Open Scope nat_scope.

(** * Numbers *)

Lemma number_snoc : forall d c, number (d ++ [c]) = (number d * 10 + digit_value c)%Z.
Proof. intros d c. unfold number. now rewrite fold_left_app. Qed.
Lemma digit_bounds : forall c, is_digit c = true -> (0 <= digit_value c < 10)%Z /\ (c <> "0" -> 0 < digit_value c)%Z /\
  ascii_of_N (48 + Z.to_N (digit_value c)) = c.
Proof. intros [[] [] [] [] [] [] [] []]; vm_compute; intuition (try discriminate); congruence. Qed.
Lemma number_positive : forall d, digit_text d -> (0 <= number d)%Z /\ (match d with c :: _ => c <> "0" | [] => False end -> 0 < number d)%Z.
Proof.
  intros d. induction d as [|c d IH] using rev_ind; intros [N0 F]; [easy|].
  apply Forall_app in F as [F Fc]. pose proof (Forall_inv Fc) as Hc. destruct (digit_bounds c Hc) as [B [P _]].
  rewrite number_snoc. destruct d as [|x d].
  - cbn [app]. unfold number. cbn [fold_left]. split; [lia|]. intros H. specialize (P H). lia.
  - destruct IH as [I1 I2]; [now split|]. cbn [app]. split; [lia|]. intros H. specialize (I2 H). lia.
Qed.
Lemma digits_numeral : forall f n acc d, digit_text d -> match d with c :: _ :: _ => c <> "0" | _ => True end ->
  number d = Z.of_N n -> (n < 10 ^ N.of_nat f)%N -> f <> 0 -> digits f n acc = d ++ acc.
Proof.
  induction f as [|f IH]; intros n acc d D C V B F0; [easy|]. destruct D as [N0 F].
  destruct (exists_last N0) as [d' [c E]]. subst d. apply Forall_app in F as [F Fc]. pose proof (Forall_inv Fc) as Hc.
  destruct (digit_bounds c Hc) as [Bc [_ Ac]]. rewrite number_snoc in V. cbn [digits].
  assert (P : (0 <= number d')%Z). { destruct d' as [|x d']; [reflexivity|]. apply number_positive. now split. }
  assert (Dv : (n / 10 = Z.to_N (number d'))%N).
  { apply N2Z.inj. rewrite N2Z.inj_div, <- V, Z2N.id by exact P. symmetry. apply (Z.div_unique_pos _ 10 _ (digit_value c)); lia. }
  assert (Md : (n mod 10 = Z.to_N (digit_value c))%N).
  { apply N2Z.inj. rewrite N2Z.inj_mod, <- V, Z2N.id by lia. symmetry. apply (Z.mod_unique_pos _ 10 (number d')); lia. }
  rewrite Md, Ac, Dv. destruct d' as [|x d'].
  - cbn. destruct f; reflexivity.
  - assert (C' : x <> "0"). { cbn [app] in C. destruct d' as [|y d']; exact C. }
    destruct (number_positive (x :: d')) as [_ P']; [now split|]. specialize (P' C').
    assert (E0 : (Z.to_N (number (x :: d')) =? 0)%N = false) by (apply N.eqb_neq; lia). rewrite E0.
    assert (B' : (Z.to_N (number (x :: d')) < 10 ^ N.of_nat f)%N).
    { rewrite <- Dv. apply N.div_lt_upper_bound; [lia|]. rewrite Nnat.Nat2N.inj_succ, N.pow_succ_r' in B. lia. }
    rewrite IH with (d := x :: d').
    + now rewrite <- app_assoc.
    + now split.
    + destruct d'; [exact Logic.I|exact C'].
    + now rewrite Z2N.id.
    + exact B'.
    + intros ->. cbn in B'. lia.
Qed.
Lemma numeral_string : forall z t, numeral z t -> (Z.abs z < 10 ^ 40)%Z -> to_string_Z z = t.
Proof.
  intros z t [d [D [C [[Z0 [-> V]]|[Z0 [-> V]]]]]] B; unfold to_string_Z, to_string_N.
  - assert (E : (z <? 0)%Z = false) by (apply Z.ltb_ge; lia). rewrite E. rewrite <- (app_nil_r d).
    apply digits_numeral; [exact D|exact C|rewrite Z2N.id; lia| |lia]. apply N2Z.inj_lt. rewrite Z2N.id by lia. rewrite N2Z.inj_pow. lia.
  - assert (E : (z <? 0)%Z = true) by (apply Z.ltb_lt; lia). rewrite E. f_equal. rewrite <- (app_nil_r d).
    apply digits_numeral; [exact D|exact C|rewrite Z2N.id; lia| |lia]. apply N2Z.inj_lt. rewrite Z2N.id by lia. rewrite N2Z.inj_pow. lia.
Qed.
Lemma fits_small : forall z, fits z -> (Z.abs z < 10 ^ 40)%Z.
Proof. intros z H. unfold fits, int_max in H. assert ((2147483648 < 10 ^ 40)%Z) by reflexivity. lia. Qed.
Lemma int_numeral : forall z t, fits z -> numeral z t -> int_result z = POk t.
Proof.
  intros z t H N0. unfold int_result. rewrite (numeral_string z t N0) by now apply fits_small. destruct H as [H1 H2].
  apply Z.leb_le in H1. apply Z.leb_le in H2. now rewrite H1, H2.
Qed.
Lemma atoi_number : forall d n, Forall (fun c => is_digit c = true) d -> atoi_digits d n = fold_left (fun n c => n * 10 + digit_value c)%Z d n.
Proof. induction d as [|c d IH]; intros n F; [reflexivity|]. inversion_clear F as [|? ? C F']. cbn. rewrite C. now apply IH. Qed.
Lemma integer_parsed : forall t z, integer t z -> parse_int t = Some z.
Proof.
  intros t z [[F1 F2] [d [[N0 D] H]]]. unfold parse_int.
  assert (B : forall y, y = z -> (- int_max - 1 <=? y)%Z && (y <=? int_max)%Z = true).
  { intros y ->. apply andb_true_intro. split; apply Z.leb_le; lia. }
  destruct d as [|c d]; [easy|]. pose proof (Forall_inv D) as Hc. destruct H as [[-> V]|[-> V]].
  - assert (Nm : Ascii.eqb c "-" = false). { revert Hc. clear. revert c. intros [[] [] [] [] [] [] [] []]; vm_compute; intuition discriminate. }
    rewrite Nm, Hc, atoi_number by exact D. fold (number (c :: d)). rewrite V. now rewrite B.
  - rewrite eqb_refl'. rewrite Hc, atoi_number by exact D. fold (number (c :: d)). rewrite V, Z.opp_involutive. now rewrite B.
Qed.

(** * Arguments *)

Lemma drop_spaces : forall s x, spaces s -> match x with c :: _ => is_space c = false | [] => True end -> drop_space (s ++ x) = x.
Proof.
  intros s x H C. induction H as [|c s Hc _ IH]; cbn [app drop_space].
  - destruct x as [|c x]; [reflexivity|]. cbn. now rewrite C.
  - now rewrite Hc.
Qed.
Lemma trimmed_trim : forall a b, trimmed a b -> trim a = b.
Proof.
  intros a b [x [y [-> [F B]]]]. apply Forall_app in F as [Fx Fy]. unfold trim, trim_space. destruct b as [|c b].
  - cbn [app]. rewrite <- (app_nil_r (x ++ y)). rewrite drop_spaces; [reflexivity|apply Forall_app; split; assumption|exact Logic.I].
  - destruct B as [B1 B2]. rewrite drop_spaces; [|exact Fx|exact B1]. rewrite rev_app_distr. rewrite drop_spaces.
    + apply rev_involutive.
    + now apply Forall_rev.
    + destruct (exists_last (l := c :: b) ltac:(discriminate)) as [l [e E]]. rewrite E. rewrite rev_app_distr. cbn [rev app].
      rewrite E in B2. now rewrite last_app_one in B2.
Qed.
Lemma unquoted_fun : forall a b c, unquoted a b -> unquoted a c -> b = c.
Proof.
  intros a b c H H'. destruct H as [q s Q|a Na].
  - inversion H' as [q' s' Q' E E'|a' Na' E]; subst.
    + match goal with H : _ ++ [_] = _ ++ [_] |- _ => apply app_inj_tail in H; now destruct H end.
    + exfalso. eapply Na'; eauto.
  - inversion H' as [q' s' Q' E E'|a' Na' E]; subst; [|reflexivity]. exfalso. eapply Na; eauto.
Qed.
Lemma decimal_fun : forall n t t', (N.of_nat n < 10 ^ 40)%N -> decimal n t -> decimal n t' -> t = t'.
Proof.
  assert (H : forall n t, (N.of_nat n < 10 ^ 40)%N -> decimal n t -> t = to_string_N (N.of_nat n)).
  { intros n t B [N0 [F [V H]]]. unfold to_string_N. rewrite (digits_numeral 40 (N.of_nat n) [] t).
    - now rewrite app_nil_r.
    - now split.
    - destruct t as [|x [|y t]]; [exact Logic.I|exact Logic.I|exact H].
    - rewrite V. lia.
    - exact B.
    - lia. }
  intros n t t' B X Y. rewrite (H n t B X), (H n t' B Y). reflexivity.
Qed.
Lemma instances_fun : forall vals ps rs rs', (N.of_nat (length vals) < 10 ^ 40)%N ->
  Forall2 (instance vals) ps rs -> Forall2 (instance vals) ps rs' -> rs = rs'.
Proof.
  intros vals ps rs rs' B H. revert rs'. induction H as [|p r ps rs Hp _ IH]; intros rs' H'; inversion H' as [|? r' ? rs2 Hp' F]; subst; [reflexivity|].
  f_equal; [|now apply IH].
  destruct p as [t|d| |]; cbn in Hp, Hp'; try congruence.
  - destruct (nth_error vals (Z.to_nat (number d))); [eapply unquoted_fun; eassumption|congruence].
  - eapply decimal_fun; eassumption.
Qed.
Lemma substituted : forall vals ps rs, (N.of_nat (length vals) < 10 ^ 40)%N -> parts_ok ps -> Forall2 (instance vals) ps rs ->
  substitute_arguments (body_text ps) vals = POk (concat rs).
Proof.
  intros vals ps rs B Ok H. unfold substitute_arguments.
  destruct (substitute_parts vals B ps [] (S (length (body_text ps)))) as [rs' [H' E]]; [easy|exact Ok|cbn; lia|].
  cbn [app] in E. rewrite E. now rewrite (instances_fun vals ps rs rs' B H H').
Qed.

(** * Calls without parameters left in their text *)

Lemma closed_dollar : forall t, closed t -> skip_until_not_in_string ["$"] t = SOk None \/
  exists a r, t = a ++ "$" :: r /\ skip_until_not_in_string ["$"] t = SOk (Some r) /\ closed r.
Proof.
  intros t H. induction H as [|c r Q _ C IH|q s r Q Nq Nf C IH].
  - now left.
  - destruct (Ascii.eqb_spec c "$") as [->|Nd].
    + right. exists [], r. split; [reflexivity|]. split; [|exact C]. rewrite nis_eq. unfold nis_next. change (is_quote "$") with false. cbn iota.
      cbn [skip]. now rewrite eqb_refl'.
    + assert (E : skip_until_not_in_string ["$"] (c :: r) = skip_until_not_in_string ["$"] r).
      { rewrite nis_eq. unfold nis_next. unfold quotes in Q. destruct (is_quote c); [easy|]. cbn [skip]. destruct (Ascii.eqb_spec "$" c); [now subst|reflexivity]. }
      rewrite E. destruct IH as [IH|[a [x [-> [IH Cx]]]]]; [now left|]. right. exists (c :: a), x. auto.
  - assert (E : skip_until_not_in_string ["$"] (q :: s ++ q :: r) = skip_until_not_in_string ["$"] r).
    { rewrite nis_eq. unfold nis_next at 1. unfold quotes in Q. rewrite Q. rewrite skip_until_char by exact Nq. rewrite (nis_eq ["$"] r).
      assert (X : nis_next r = SOk r).
      { unfold nis_next. destruct r as [|c r]; [reflexivity|]. unfold no_quote_first, quotes in Nf. now destruct (is_quote c). }
      now rewrite X. }
    rewrite E. destruct IH as [IH|[a [x [-> [IH Cx]]]]]; [now left|]. right. exists (q :: s ++ q :: a), x. split; [|auto].
    cbn. now rewrite <- app_assoc.
Qed.
Lemma closed_word : forall i q, Forall (fun c => is_ident_char c = true) i -> closed (i ++ q) -> closed q.
Proof.
  induction i as [|c i IH]; intros q F H; [exact H|]. inversion_clear F as [|? ? C F']. inversion H as [|? ? _ _ H'|q' s r Q]; subst.
  - now apply IH.
  - exfalso. revert C Q. clear. unfold quotes. revert c. intros [[] [] [] [] [] [] [] []]; vm_compute; intuition discriminate.
Qed.
Lemma ident_of : forall t i q, read_ident t = (i, q) -> t = i ++ q /\ Forall (fun c => is_ident_char c = true) i.
Proof.
  induction t as [|c t IH]; intros i q E.
  - cbn in E. injection E as <- <-. split; [reflexivity|constructor].
  - cbn [read_ident] in E. destruct (is_ident_char c) eqn:C.
    + destruct (read_ident t) as [j x]. injection E as <- <-. destruct (IH j x eq_refl) as [-> F]. split; [reflexivity|now constructor].
    + injection E as <- <-. split; [reflexivity|constructor].
Qed.
Lemma no_parameters : forall f t, length t < f -> closed t -> no_parameter t -> variable_loop f t = POk false.
Proof.
  induction f as [|f IH]; intros t L C P; [lia|]. cbn [variable_loop]. change (T "$") with ["$"].
  destruct (closed_dollar t C) as [->|[a [r [E [-> Cr]]]]]; [reflexivity|]. cbn [of_sres pbind]. subst t.
  destruct (read_ident r) as [i q] eqn:R. destruct (ident_of _ _ _ R) as [-> F].
  assert (N0 : parse_int i = None).
  { specialize (P a (i ++ q) eq_refl). destruct i as [|c i]; [reflexivity|]. cbn [app] in P. destruct P as [P1 P2]. unfold parse_int.
    destruct (Ascii.eqb_spec c "-"); [easy|]. now rewrite P1. }
  rewrite N0. apply IH.
  - rewrite app_length in L. cbn [length] in L. rewrite app_length in L. lia.
  - now apply (closed_word i).
  - intros b x ->. apply (P (a ++ "$" :: i ++ b) x). rewrite <- app_assoc. cbn [app]. now rewrite <- app_assoc.
Qed.
Lemma no_variables_left : forall t, closed t -> no_parameter t -> contains_variable t = POk false.
Proof. intros t C P. apply no_parameters; [lia|exact C|exact P]. Qed.

(** * `apply` *)

Lemma skip_prefix : forall p b, skip p (p ++ b) = Some b.
Proof. induction p as [|c p IH]; intros b; [reflexivity|]. cbn [app skip]. rewrite eqb_refl'. apply IH. Qed.
Lemma found : forall p t, text_find p t = true <-> exists a b, t = a ++ p ++ b.
Proof.
  intros p t. split.
  - induction t as [|c t IH]; intros E; cbn [text_find] in E.
    + destruct (skip p []) as [q|] eqn:S1; [|easy]. apply skip_app in S1. now exists [], q.
    + destruct (skip p (c :: t)) as [q|] eqn:S1; [apply skip_app in S1; now exists [], q|].
      destruct (IH E) as [a [b ->]]. now exists (c :: a), b.
  - intros [a [b ->]]. induction a as [|c a IH].
    + cbn [app]. destruct (p ++ b) as [|c t] eqn:E; cbn [text_find]; rewrite <- E, skip_prefix; reflexivity.
    + cbn [app text_find]. rewrite IH. now destruct (skip p (c :: a ++ p ++ b)).
Qed.

Lemma formal_parts : forall ps lit f k, ~ In "$"%char lit -> parts_ok ps ->
  Forall (fun p => match p with PArg d => (number d < int_max)%Z | PCount => False | _ => True end) ps ->
  length (lit ++ body_text ps) < f ->
  formal_loop f (lit ++ body_text ps) (Z.of_nat k) = POk (Z.of_nat (Nat.max (parameters ps) k)).
Proof.
  induction ps as [|p ps IH]; intros lit f k Nl Ok F L.
  - cbn [body_text flat_map parameters] in *. rewrite app_nil_r in *. destruct f as [|f]; [lia|]. cbn [formal_loop].
    now rewrite skip_until_none.
  - destruct Ok as [Op Or]. inversion_clear F as [|? ? Fp Fr]. change (body_text (p :: ps)) with (part_text p ++ body_text ps) in *.
    destruct p as [t|d| |]; cbn [part_text parameters] in *.
    + rewrite app_assoc in *. apply IH; [|exact Or|exact Fr|exact L]. intros X. apply in_app_or in X. now destruct X.
    + destruct Op as [Nd [Fd [Bd Rd]]]. destruct f as [|f]; [lia|]. cbn [formal_loop app] in *.
      rewrite skip_until_dollar by exact Nl. rewrite try_read_digits by assumption.
      assert (P0 : (0 <= number d)%Z) by now apply number_positive.
      destruct (Z.eqb_spec (number d) int_max); [lia|]. cbn [orb].
      replace (Z.max (number d + 1) (Z.of_nat k)) with (Z.of_nat (Nat.max (S (Z.to_nat (number d))) k)) by lia.
      rewrite (IH [] f); [|easy|exact Or|exact Fr|].
      * f_equal. lia.
      * rewrite !app_length in L. cbn [length] in L. rewrite app_length in L. cbn [app]. lia.
    + easy.
    + destruct f as [|f]; [lia|]. cbn [formal_loop app] in *. rewrite skip_until_dollar by exact Nl.
      assert (X : try_read_number (body_text ps) = None).
      { destruct (body_text ps) as [|c r]; [reflexivity|]. destruct Op as [Op _]. unfold try_read_number. now rewrite Op. }
      rewrite X. rewrite (IH [] f); [reflexivity|easy|exact Or|exact Fr|].
      rewrite !app_length in L. cbn [length] in L. cbn [app]. lia.
Qed.
Lemma parts_quoted : forall q ps, quotes q -> parts_ok ps -> parts_ok (ps ++ [PLit [q]]).
Proof.
  intros q ps Q. assert (B : forall ps, body_text (ps ++ [PLit [q]]) = body_text ps ++ [q]).
  { intros l. unfold body_text. now rewrite flat_map_app. }
  assert (C : is_digit q = false /\ q <> "$").
  { revert Q. unfold quotes. clear. revert q. intros [[] [] [] [] [] [] [] []]; vm_compute; intuition discriminate. }
  induction ps as [|p ps IH]; intros Ok.
  - cbn. intuition (subst; easy).
  - destruct Ok as [Op Or]. split; [|now apply IH]. rewrite B. destruct p as [t|d| |]; cbn in *; try exact Op.
    + destruct Op as [Nd [Fd [Bd Rd]]]. repeat split; try assumption. destruct (body_text ps); [apply C|exact Rd].
    + destruct (body_text ps); [apply C|exact Op].
Qed.
Lemma formal_count : forall x x' ps, unquoted x x' -> x' = body_text ps -> parts_ok ps ->
  Forall (fun p => match p with PArg d => (number d < int_max)%Z | PCount => False | _ => True end) ps ->
  get_formal_argument_count x = POk (Z.of_nat (parameters ps)).
Proof.
  intros x x' ps U E Ok F. unfold get_formal_argument_count. change 0%Z with (Z.of_nat 0). destruct U as [q s Q|a Na]; subst.
  - assert (B : q :: body_text ps ++ [q] = [q] ++ body_text (ps ++ [PLit [q]])).
    { cbn [app]. f_equal. unfold body_text. now rewrite flat_map_app. }
    rewrite B. rewrite formal_parts.
    + do 2 f_equal. assert (G : forall l, parameters (l ++ [PLit [q]]) = parameters l).
      { induction l as [|[] l IH]; cbn [app parameters]; try reflexivity; now rewrite IH. }
      rewrite G. lia.
    + intros [->|[]]. discriminate.
    + now apply parts_quoted.
    + apply Forall_app. split; [exact F|]. now constructor.
    + lia.
  - rewrite (formal_parts ps [] _ 0); [|easy|exact Ok|exact F|cbn; lia]. f_equal. lia.
Qed.
Lemma groups : forall ps lines n, parts_ok ps -> 0 < n -> forall first args t, applied ps lines n first args t ->
  (N.of_nat (length args) < 10 ^ 40)%N -> forall f, length args < f -> apply_groups f (body_text ps) lines n args first = POk t.
Proof.
  intros ps lines n Ok P first args t H. induction H as [first args L|first l args rs t L R _ IH]; intros B [|f] Lf; try lia; cbn [apply_groups].
  - apply Nat.ltb_lt in L. now rewrite L.
  - rewrite app_length in *. destruct (Nat.ltb_spec (length l + length args) n); [lia|].
    rewrite firstn_app, firstn_all2, skipn_app, skipn_all2 by lia. replace (n - length l) with 0 by lia. cbn [firstn skipn app]. rewrite app_nil_r.
    rewrite (substituted l ps rs); [|lia|exact Ok|exact R]. cbn [pbind]. rewrite IH by lia. reflexivity.
Qed.

(** * Builtins *)

Lemma repeated : forall x k, Z.iter k (fun t => x ++ T " " ++ t) [] = concat (repeat (x ++ [" "]) (Z.to_nat k)).
Proof.
  intros x k. destruct k as [|p|p]; try reflexivity. unfold Z.iter. rewrite Pos2Nat.inj_iter. change (Z.to_nat (Z.pos p)) with (Pos.to_nat p).
  generalize (Pos.to_nat p). intros n. induction n as [|n IH]; [reflexivity|]. cbn [Nat.iter nat_rect repeat concat]. rewrite <- app_assoc. cbn [app].
  now rewrite <- IH.
Qed.
Lemma operation_name : forall i a b z, operation i a b z ->
  text_eqb i (T "length") = false /\ text_in i ["add"; "sub"; "mul"; "div"; "mod"; "min"; "max"]%string = true.
Proof. intros i a b z H. now destruct H. Qed.

Lemma builtin_applied : forall i vals b, builtin i vals b -> apply_builtin_macro i vals = POk b.
Proof.
  intros i vals b H. destruct H as [q s t Q B N0|i x y a b z t X Y O F N0|x y k Y|x y|x x' ps lines args t U E Ok F Ln P B A].
  - unfold apply_builtin_macro. change (text_eqb (T "length") (T "length")) with true. cbv iota.
    assert (R : rev (q :: s ++ [q]) = q :: rev s ++ [q]) by (cbn [rev]; now rewrite rev_app_distr).
    assert (C : (negb (Ascii.eqb q quote2) && negb (Ascii.eqb q quote1)) || negb (Ascii.eqb q q) = false).
    { revert Q. unfold quotes. clear. revert q. intros [[] [] [] [] [] [] [] []]; vm_compute; intuition discriminate. }
    assert (G : to_string_N (N.of_nat (length (q :: s ++ [q]) - 2)) = t).
    { cbn [length]. rewrite app_length. cbn [length]. replace (S (length s + 1) - 2) with (length s) by lia.
      assert (X : to_string_Z (Z.of_nat (length s)) = t) by (apply numeral_string; [exact N0|lia]).
      rewrite <- X. unfold to_string_Z. destruct (Z.ltb_spec (Z.of_nat (length s)) 0); [lia|]. f_equal. lia. }
    destruct (s ++ [q]) as [|c r] eqn:Er; [now destruct s|]. rewrite R, C. now rewrite G.
  - apply integer_parsed in X, Y. destruct (operation_name _ _ _ _ O) as [O1 O2]. unfold apply_builtin_macro. rewrite O1, O2, X, Y.
    destruct O as [a b|a b|a b|a b Nb|a b Nb Fq|a b|a b]; cbn [text_eqb T list_ascii_of_string]; try (now apply int_numeral).
    + destruct (Z.eqb_spec b 0); [easy|]. now apply int_numeral.
    + destruct (Z.eqb_spec b 0); [easy|]. 
      assert (G : exists t, int_result (Z.quot a b) = POk t).
      { unfold int_result. destruct Fq as [F1 F2]. apply Z.leb_le in F1, F2. rewrite F1, F2. now eexists. }
      destruct G as [g G]. rewrite G.
      cbn [andb pbind]. now apply int_numeral.
  - change (apply_builtin_macro (T "repeat") [x; y]) with
      (match parse_int y with Some n => POk (Z.iter n (fun t => x ++ T " " ++ t) []) | None => PErr end).
    rewrite (integer_parsed y k Y). f_equal. apply repeated.
  - reflexivity.
  - change (apply_builtin_macro (T "apply") (x :: args)) with
      (do n <- get_formal_argument_count x ;;
       if (n =? 0)%Z || (Z.of_nat (length args) <? n)%Z then POk []
       else apply_groups (S (length args)) (unquote x) (text_find (T ">>") x) (Z.to_nat n) args true).
    rewrite (formal_count x x' ps U E Ok F). cbn [pbind].
    destruct (Z.eqb_spec (Z.of_nat (parameters ps)) 0); [lia|].
    destruct (Z.ltb_spec (Z.of_nat (length args)) (Z.of_nat (parameters ps))); [lia|]. cbn [orb].
    assert (Ux : unquote x = x') by (eapply unquoted_fun; [apply unquote_unquoted|exact U]). rewrite Ux, E, Nat2Z.id.
    assert (Lx : text_find (T ">>") x = lines).
    { destruct lines; [apply found; apply Ln; reflexivity|]. destruct (text_find (T ">>") x) eqn:G; [|reflexivity].
      apply found in G. apply Ln in G. discriminate. }
    rewrite Lx. apply groups; try assumption; lia.
Qed.
