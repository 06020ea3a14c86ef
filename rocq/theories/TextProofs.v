(** The functions of string_iteration.h only move forward, and where they stop. *)
From Coq Require Import String Ascii List NArith ZArith Bool Lia.
From Verif Require Import Base Text TextSpec.
Import ListNotations.

Lemma suffix_refl : forall t, suffix t t.
Proof. intros t. now exists []. Qed.
Lemma suffix_nil : forall t, suffix [] t.
Proof. intros t. exists t. now rewrite app_nil_r. Qed.
Lemma suffix_cons : forall c q t, suffix q t -> suffix q (c :: t).
Proof. intros c q t [a ->]. now exists (c :: a). Qed.
Lemma suffix_trans : forall a b c, suffix a b -> suffix b c -> suffix a c.
Proof. intros a b c [x ->] [y ->]. exists (y ++ x). now rewrite app_assoc. Qed.
Lemma later_suffix : forall a b, later a b -> suffix a b.
Proof. intros a b [x [_ H]]. now exists x. Qed.
Lemma later_trans : forall a b c, later a b -> suffix b c -> later a c.
Proof.
  intros a b c [x [N ->]] [y ->]. exists (y ++ x). split; [|now rewrite app_assoc].
  destruct y; [exact N|discriminate].
Qed.
Lemma later_trans2 : forall a b c, suffix a b -> later b c -> later a c.
Proof.
  intros a b c [x ->] [y [N ->]]. exists (y ++ x). split; [|now rewrite app_assoc].
  destruct y; [now destruct N|discriminate].
Qed.
Lemma later_cons : forall c q t, suffix q t -> later q (c :: t).
Proof. intros c q t [a ->]. exists (c :: a). split; [discriminate|reflexivity]. Qed.
Lemma suffix_length : forall a b, suffix a b -> length a <= length b.
Proof. intros a b [x ->]. rewrite app_length. lia. Qed.
Lemma later_length : forall a b, later a b -> length a < length b.
Proof. intros a b [x [N ->]]. rewrite app_length. destruct x; [easy|cbn; lia]. Qed.

Lemma before_app : forall a q, before (a ++ q) q = a.
Proof.
  intros a q. unfold before. rewrite app_length.
  replace (length a + length q - length q) with (length a) by lia.
  rewrite firstn_app, Nat.sub_diag, firstn_all. cbn. apply app_nil_r.
Qed.

Lemma skip_app : forall p it q, skip p it = Some q -> it = p ++ q.
Proof.
  induction p as [|c p IH]; intros it q H; [injection H as <-; reflexivity|].
  destruct it as [|x it]; [discriminate|]. cbn in H. destruct (Ascii.eqb_spec c x) as [E|E];
    [|discriminate].
  subst x. cbn. now rewrite <- (IH it q H).
Qed.
Lemma skip_suffix : forall p it q, skip p it = Some q -> suffix q it.
Proof. intros p it q H. exists p. now apply skip_app. Qed.
Lemma skip_later : forall p it q, p <> [] -> skip p it = Some q -> later q it.
Proof. intros p it q N H. exists p. split; [exact N|now apply skip_app]. Qed.

Lemma skip_until_app : forall p it q, skip_until p it = Some q -> exists a, it = a ++ p ++ q.
Proof.
  intros p it. induction it as [|c r IH]; intros q H; [discriminate|].
  cbn [skip_until] in H. destruct (skip p (c :: r)) as [x|] eqn:E.
  - injection H as <-. exists []. exact (skip_app _ _ _ E).
  - destruct (IH q H) as [a ->]. now exists (c :: a).
Qed.
Lemma skip_until_suffix : forall p it q, skip_until p it = Some q -> suffix q it.
Proof.
  intros p it q H. destruct (skip_until_app p it q H) as [a ->]. exists (a ++ p).
  now rewrite app_assoc.
Qed.
Lemma skip_until_later : forall p it q, p <> [] -> skip_until p it = Some q -> later q it.
Proof.
  intros p it q N H. destruct (skip_until_app p it q H) as [a ->]. exists (a ++ p).
  split; [destruct a; [exact N|discriminate]|now rewrite app_assoc].
Qed.

Lemma skip_space_suffix : forall it, suffix (skip_space it) it.
Proof.
  induction it as [|c r IH]; [apply suffix_refl|]. cbn [skip_space].
  destruct (is_space c); [now apply suffix_cons|].
  destruct (is_comment_char c); [apply suffix_nil|apply suffix_refl].
Qed.

Lemma read_ident_app : forall it i q, read_ident it = (i, q) -> it = i ++ q.
Proof.
  induction it as [|c r IH]; intros i q H; [injection H as <- <-; reflexivity|].
  cbn [read_ident] in H. destruct (is_ident_char c).
  - destruct (read_ident r) as [j s]. injection H as <- <-. cbn. now rewrite <- (IH j s eq_refl).
  - injection H as <- <-. reflexivity.
Qed.
Lemma read_ident_suffix : forall it i q, read_ident it = (i, q) -> suffix q it.
Proof. intros it i q H. exists i. now apply read_ident_app. Qed.
Lemma read_ident_later : forall it c i q, read_ident it = (c :: i, q) -> later q it.
Proof.
  intros it c i q H. exists (c :: i). split; [discriminate|now apply read_ident_app].
Qed.
(** The rest does not start with a letter of an identifier. *)
Lemma read_ident_stop : forall it i q, read_ident it = (i, q) ->
  match q with [] => True | c :: _ => is_ident_char c = false end.
Proof.
  induction it as [|c r IH]; intros i q H; [injection H as <- <-; exact I|].
  cbn [read_ident] in H. destruct (is_ident_char c) eqn:E.
  - destruct (read_ident r) as [j s]. injection H as <- <-. now apply (IH j s).
  - injection H as <- <-. exact E.
Qed.

Lemma digit_nonneg : forall c, is_digit c = true -> (0 <= digit_value c)%Z.
Proof.
  intros c H. unfold is_digit, in_codes in H. apply andb_true_iff in H. destruct H as [H _].
  apply N.leb_le in H. unfold digit_value. lia.
Qed.

Lemma read_number_app : forall it n ub n' ub' r,
  read_number it n ub = (n', ub', r) -> ub = (int_max <? n)%Z -> (0 <= n)%Z ->
  exists d, it = d ++ r /\ Forall (fun c => is_digit c = true) d
            /\ n' = fold_left (fun n c => n * 10 + digit_value c)%Z d n
            /\ ub' = (int_max <? n')%Z /\ (0 <= n')%Z
            /\ match r with [] => True | c :: _ => is_digit c = false end.
Proof.
  induction it as [|c it IH]; intros n ub n' ub' r H U P; cbn [read_number] in H.
  - injection H as <- <- <-. exists []. now repeat split.
  - destruct (is_digit c) eqn:D.
    + pose proof (digit_nonneg c D) as Dn.
      apply IH in H; [| |lia].
      * destruct H as [d [-> [F [V [W [Z R]]]]]]. exists (c :: d).
        repeat split; [now constructor|exact V|exact W|exact Z|exact R].
      * subst ub. destruct (int_max <? n)%Z eqn:A; [|reflexivity].
        apply Z.ltb_lt in A. symmetry. apply Z.ltb_lt. lia.
    + injection H as <- <- <-. exists []. now repeat split.
Qed.

Lemma try_read_number_app : forall it n ub r, try_read_number it = Some (n, ub, r) ->
  exists d, d <> [] /\ it = d ++ r /\ Forall (fun c => is_digit c = true) d
            /\ n = number d /\ ub = (int_max <? n)%Z /\ (0 <= n)%Z.
Proof.
  intros it n ub r H. destruct it as [|c it]; [discriminate|]. cbn [try_read_number] in H.
  destruct (is_digit c) eqn:D; [|discriminate]. 
  assert (H' : read_number (c :: it) 0 false = (n, ub, r)) by now injection H.
  clear H. rename H' into H.
  destruct (read_number_app _ _ _ _ _ _ H eq_refl (Z.le_refl 0))
    as [d [E [F [V [W [Z R]]]]]].
  exists d. repeat split; try assumption.
  intros ->. cbn in E. subst r. now rewrite D in R.
Qed.
Lemma try_read_number_later : forall it n ub r, try_read_number it = Some (n, ub, r) -> later r it.
Proof.
  intros it n ub r H. destruct (try_read_number_app it n ub r H) as [d [N [E _]]].
  now exists d.
Qed.
Lemma try_read_number_huge : forall it n r, try_read_number it = Some (n, true, r) ->
  huge_number it.
Proof.
  intros it n r H. destruct (try_read_number_app it n true r H) as [d [N [E [F [V [W Z]]]]]].
  exists [], d, r. repeat split; [exact E|exact F|]. rewrite <- V. apply Z.ltb_lt. now symmetry.
Qed.

Lemma huge_suffix : forall q t, suffix q t -> huge_number q -> huge_number t.
Proof.
  intros q t [x ->] [a [d [b [-> [F L]]]]]. exists (x ++ a), d, b.
  repeat split; [now rewrite app_assoc|exact F|exact L].
Qed.
Lemma huge_infix : forall a q b, huge_number q -> huge_number (a ++ q ++ b).
Proof.
  intros x q y [a [d [b [-> [F L]]]]]. exists (x ++ a), d, (b ++ y).
  repeat split; [now rewrite <- !app_assoc|exact F|exact L].
Qed.

(** A check that no number is huge: no ten digits in a row. *)
Fixpoint short_numbers (n : nat) (t : text) : bool :=
  match t with
  | [] => true
  | c :: r => if is_digit c then Nat.ltb n 9 && short_numbers (S n) r else short_numbers 0 r
  end.
Lemma short_run : forall d b n, n <= 9 -> Forall (fun c => is_digit c = true) d ->
  short_numbers n (d ++ b) = true -> n + length d <= 9.
Proof.
  induction d as [|c d IH]; intros b n L F H; [cbn; lia|]. inversion_clear F as [|? ? Hc Fd].
  cbn [app short_numbers] in H. rewrite Hc in H. apply andb_prop in H as [H1 H2].
  apply Nat.ltb_lt in H1. specialize (IH b (S n) ltac:(lia) Fd H2). cbn. lia.
Qed.
Lemma short_infix : forall a d b n, n <= 9 -> Forall (fun c => is_digit c = true) d ->
  short_numbers n (a ++ d ++ b) = true -> length d <= 9.
Proof.
  induction a as [|c a IH]; intros d b n L F H.
  - pose proof (short_run d b n L F H). lia.
  - cbn [app short_numbers] in H. destruct (is_digit c).
    + apply andb_prop in H as [H1 H2]. apply Nat.ltb_lt in H1. now apply (IH d b (S n)).
    + apply (IH d b 0); [lia|exact F|exact H].
Qed.
Lemma number_bound : forall d, Forall (fun c => is_digit c = true) d ->
  (number d < 10 ^ Z.of_nat (length d))%Z.
Proof.
  intros d F. unfold number.
  assert (forall n, (0 <= n)%Z -> (fold_left (fun n c => n * 10 + digit_value c) d n
                     < (n + 1) * 10 ^ Z.of_nat (length d))%Z) as H.
  { induction F as [|c d Hc F IH]; intros n Hn; cbn [fold_left length]; [lia|].
    assert (0 <= digit_value c <= 9)%Z.
    { unfold is_digit, in_codes in Hc. apply andb_prop in Hc as [H1 H2].
      apply N.leb_le in H1, H2. unfold digit_value. lia. }
    rewrite Nat2Z.inj_succ, Z.pow_succ_r by apply Nat2Z.is_nonneg.
    specialize (IH (n * 10 + digit_value c)%Z ltac:(lia)).
    assert (0 < 10 ^ Z.of_nat (length d))%Z by (apply Z.pow_pos_nonneg; lia). nia. }
  specialize (H 0%Z ltac:(lia)). rewrite Z.mul_1_l in H. exact H.
Qed.
Lemma short_not_huge : forall t, short_numbers 0 t = true -> ~ huge_number t.
Proof.
  intros t H [a [d [b [-> [F L]]]]]. pose proof (short_infix a d b 0 ltac:(lia) F H) as G.
  pose proof (number_bound d F) as B.
  assert (10 ^ Z.of_nat (length d) <= 10 ^ 9)%Z by (apply Z.pow_le_mono_r; lia).
  unfold int_max in L. lia.
Qed.
