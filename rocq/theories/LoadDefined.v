(** Loading a careful configuration never meets undefined behaviour. *)
From Coq Require Import String Ascii List Arith NArith ZArith Bool Lia.
From Verif Require Import Base Key Text TextSpec TextProofs Match ParseSeq ParseProofs ParseInput Stage Config
  MacroSpec MacroTokens MacroProofs FileLines LoadSpec.
Import ListNotations.
Local Open Scope nat_scope.

(** * Results which are not undefined *)

Definition safe {A} (P : A -> Prop) (r : pres A) : Prop :=
  match r with POk a => P a | PErr => True | PUB => False | PFuel => True end.
Definition fine {A} (r : pres A) : Prop := safe (fun _ => True) r.
Lemma safe_bind : forall A B (P : A -> Prop) (Q : B -> Prop) m f,
  safe P m -> (forall a, P a -> safe Q (f a)) -> safe Q (pbind m f).
Proof. intros A B P Q [a| | |] f H K; cbn in *; auto. Qed.
Lemma fine_bind : forall A B (Q : B -> Prop) (m : pres A) f,
  fine m -> (forall a, m = POk a -> safe Q (f a)) -> safe Q (pbind m f).
Proof. intros A B Q [a| | |] f H K; cbn in *; auto. Qed.
Lemma safe_impl : forall A (P Q : A -> Prop) r, (forall a, P a -> Q a) -> safe P r -> safe Q r.
Proof. intros A P Q [a| | |] H K; cbn in *; auto. Qed.
Lemma safe_sres : forall A B (Q : B -> Prop) (m : sres A) f,
  (forall a, m = SOk a -> safe Q (f a)) -> safe Q (pbind (of_sres m) f).
Proof. intros A B Q [a|] f H; [now apply H|exact I]. Qed.

(** * Good texts *)

Lemma short_part : forall a b c, short (a ++ b ++ c) -> short b.
Proof.
  intros a b c H x d y -> F. apply (H (a ++ x) d (y ++ c)); [|exact F].
  now rewrite <- !app_assoc.
Qed.
Lemma good_part : forall a b c, good (a ++ b ++ c) -> good b.
Proof.
  intros a b c [H K]. split; [now apply short_part in H|].
  intros x p q y ->. apply (K (a ++ x) p q (y ++ c)). now rewrite <- !app_assoc.
Qed.
Lemma good_suffix : forall q t, suffix q t -> good t -> good q.
Proof. intros q t [a ->] H. apply (good_part a q []). now rewrite app_nil_r. Qed.
Lemma good_before : forall q t, suffix q t -> good t -> good (before t q).
Proof. intros q t [a ->] H. rewrite before_app. exact (good_part [] a q H). Qed.
Lemma good_prefix : forall a b, good (a ++ b) -> good a.
Proof. intros a b H. exact (good_part [] a b H). Qed.
Lemma good_nil : good [].
Proof.
  split.
  - intros a d b H _. destruct a, d; try discriminate. cbn. lia.
  - intros a x y b H. now destruct a.
Qed.
Lemma good_not_huge : forall t, good t -> ~ huge_number t.
Proof.
  intros t [H _] [a [d [b [E [F L]]]]]. pose proof (H a d b E F) as G.
  pose proof (number_bound d F) as B.
  assert (10 ^ Z.of_nat (length d) <= 10 ^ 9)%Z by (apply Z.pow_le_mono_r; lia).
  unfold int_max in L. lia.
Qed.

(** Where two lists meet *)
Lemma app_split : forall (A : Type) (x y a b : list A), x ++ y = a ++ b ->
  (exists z, a = x ++ z /\ y = z ++ b) \/ (exists z, x = a ++ z /\ b = z ++ y).
Proof.
  induction x as [|c x IH]; intros y a b H.
  - left. exists a. now split.
  - destruct a as [|d a]; [right; exists (c :: x); now split|].
    cbn in H. injection H as <- H. destruct (IH y a b H) as [[z [-> ->]]|[z [-> ->]]].
    + left. now exists z.
    + right. now exists z.
Qed.

Definition fits (x y : ascii) : Prop := bad_pair x y = false /\ (is_digit x = false \/ is_digit y = false).

Lemma good_join : forall a x y b, good (a ++ [x]) -> good (y :: b) -> fits x y ->
  good ((a ++ [x]) ++ y :: b).
Proof.
  intros a x y b [S1 P1] [S2 P2] [F1 F2]. split.
  - intros p d q E D. destruct (app_split _ _ _ _ _ E) as [[z [_ Ez]]|[z [Ez Eq]]].
    { apply (S2 z d q); [exact Ez|exact D]. }
    destruct (app_split _ _ _ _ _ Eq) as [[w [-> Ew]]|[w [-> Ew]]].
    { exact (S1 p d w Ez D). }
    destruct w as [|w0 w].
    { rewrite app_nil_r in *. apply (S1 p z []); [now rewrite app_nil_r|exact D]. }
    injection Ew as <- ->. apply Forall_app in D. destruct D as [D1 D2].
    destruct z as [|z0 z _] using rev_ind.
    { cbn. apply (S2 [] (y :: w) q); [reflexivity|exact D2]. }
    exfalso. rewrite app_assoc in Ez. apply app_inj_tail in Ez. destruct Ez as [_ <-].
    apply Forall_app in D1. destruct D1 as [_ D1]. inversion_clear D1 as [|? ? Dx _].
    inversion_clear D2 as [|? ? Dy _]. destruct F2; congruence.
  - intros p u v q E. destruct (app_split _ _ _ _ _ E) as [[z [_ Ez]]|[z [Ez Eq]]].
    { exact (P2 z u v q Ez). }
    destruct z as [|c [|c' z]]; cbn in Eq.
    + exact (P2 [] u v q (eq_sym Eq)).
    + injection Eq as -> -> ->. apply app_inj_tail in Ez. destruct Ez as [_ <-]. exact F1.
    + injection Eq as -> -> ->. exact (P1 p c c' z Ez).
Qed.

(** [t] begins with a simple character where [it] begins with a name, and like [it]
    otherwise. *)
Definition begins (it t : text) : Prop :=
  match t with
  | [] => True
  | y :: _ => match it with
              | [] => False
              | c :: _ => if is_ident_char c then simple_char y = true else y = c
              end
  end.

Lemma ident_simple : forall c, is_ident_char c = true -> simple_char c = true /\ is_space c = false.
Proof.
  intros c H. assert (K : forall c, implb (is_ident_char c) (simple_char c && negb (is_space c)) = true).
  { clear. intros [[] [] [] [] [] [] [] []]; reflexivity. }
  specialize (K c). rewrite H in K. cbn in K. apply andb_prop in K as [K1 K2].
  split; [exact K1|]. now destruct (is_space c).
Qed.
Lemma digit_ident : forall c, is_ident_char c = false -> is_digit c = false.
Proof. now intros [[] [] [] [] [] [] [] []]. Qed.
Lemma simple_fits : forall x y, simple_char x = true -> y <> "["%char -> is_ident_char y = false -> fits x y.
Proof.
  intros x y H N D. split; [|right; now apply digit_ident].
  assert (K : is_quote x = false /\ Ascii.eqb x "$" = false).
  { unfold simple_char in H. destruct (is_quote x); [discriminate|]. cbn in H.
    destruct (Ascii.eqb x "/"); [discriminate|]. now destruct (Ascii.eqb x "$"). }
  destruct K as [K1 K2]. unfold bad_pair. rewrite K1, K2. cbn.
  apply Ascii.eqb_neq in N. rewrite N. now destruct (is_ident_char x).
Qed.
Lemma simple_good : forall t, short t -> Forall (fun c => simple_char c = true) t -> good t.
Proof.
  intros t S F. split; [exact S|]. intros a x y b ->. apply Forall_app in F. destruct F as [_ F].
  inversion_clear F as [|? ? Fx F']. inversion_clear F' as [|? ? Fy _].
  revert Fx Fy. unfold simple_char, bad_pair.
  destruct (is_quote x), (Ascii.eqb x "$"), (Ascii.eqb y "["); cbn; try discriminate;
    rewrite ?orb_true_r; cbn; try discriminate; intros; now rewrite ?andb_false_r.
Qed.
Lemma word_simple : forall i, i <> [] -> Forall (fun c => is_ident_char c = true) i -> short i -> simple i.
Proof.
  intros i N F S. split; [exact S|]. split.
  - eapply Forall_impl; [|exact F]. intros c H. now apply ident_simple.
  - destruct i as [|c i]; [easy|]. constructor. inversion_clear F. now apply ident_simple.
Qed.

(** What a piece is followed by *)
Lemma good_append : forall s x q rest, good ((s ++ [x]) ++ q) -> is_digit x = false ->
  good rest -> begins q rest -> good ((s ++ [x]) ++ rest).
Proof.
  intros s x q rest G D R B. destruct rest as [|y rest].
  { rewrite app_nil_r. now apply good_prefix in G. }
  apply good_join; [now apply good_prefix in G|exact R|]. split; [|now left].
  destruct q as [|c q]; [easy|]. destruct G as [_ G].
  specialize (G s x c q). rewrite <- app_assoc in G. specialize (G eq_refl). cbn in B.
  destruct (is_ident_char c) eqn:E; [|now subst].
  unfold bad_pair in *. rewrite E in G. cbn in G.
  assert (K : Ascii.eqb y "[" = false /\ Ascii.eqb y "/" = false).
  { unfold simple_char in B. destruct (Ascii.eqb y "["); [rewrite !orb_true_r in B; discriminate|].
    destruct (Ascii.eqb y "/"); [rewrite !orb_true_r in B; discriminate|]. now split. }
  destruct K as [-> ->]. rewrite !andb_false_r. cbn.
  destruct (Ascii.eqb x "$"); [|reflexivity]. now rewrite orb_true_r in G.
Qed.
Lemma good_after : forall v q rest, simple v -> good rest -> begins q rest ->
  match q with [] => True | c :: _ => is_ident_char c = false /\ c <> "["%char end ->
  good (v ++ rest).
Proof.
  intros v q rest [S [F E]] R B Q. destruct rest as [|y rest].
  { rewrite app_nil_r. now apply simple_good. }
  destruct v as [|x v _] using rev_ind; [exact R|].
  apply good_join; [now apply simple_good|exact R|]. apply Forall_app in F. destruct F as [_ F].
  inversion_clear F. destruct q as [|c q]; [easy|]. cbn in B. destruct Q as [Q1 Q2].
  rewrite Q1 in B. subst y. now apply simple_fits.
Qed.

(** * Strings, commands and regular expressions do not end in a digit *)

Definition token (it q : text) : Prop := exists s x, it = (s ++ [x]) ++ q /\ is_digit x = false.

Lemma string_token : forall it q, skip_string it = SOk (Some q) -> token it q.
Proof.
  intros [|c r] q H; [discriminate|]. cbn in H. destruct (is_quote c) eqn:Q; [|discriminate].
  destruct (skip_until [c] r) as [x|] eqn:F; [|discriminate]. injection H as <-.
  destruct (skip_until_app _ _ _ F) as [a ->]. exists (c :: a), c. split; [now rewrite <- app_assoc|].
  clear - Q. revert Q. now destruct c as [[] [] [] [] [] [] [] []].
Qed.
Lemma terminal_token : forall it q, skip_terminal_command it = SOk (Some q) -> token it q.
Proof.
  intros it q H. unfold skip_terminal_command in H.
  destruct (skip (T "$(") it) as [r|] eqn:F; [|discriminate]. apply skip_app in F.
  destruct (skip_until_not_in_string (T ")") r) as [[x|]|] eqn:G; [|discriminate|discriminate].
  injection H as <-. apply nis_inv in G. destruct G as [a [s [-> _]]]. subst it.
  exists (T "$(" ++ render a ++ s), ")"%char. split; [|reflexivity].
  rewrite render_app, render_cons. cbn [render flat_map]. now rewrite <- !app_assoc.
Qed.
Lemma regex_end : forall r b q, regex_loop b r = SOk q ->
  exists a x, r = (a ++ [x]) ++ q /\ is_digit x = false /\ In "/"%char (a ++ [x]).
Proof.
  induction r as [|c r IH]; intros b q H; [discriminate|].
  assert (E : regex_loop b (c :: r) =
              if (code c =? 47)%N then
                if b then regex_loop false r
                else SOk (match skip (T "i") r with Some q => q | None => r end)
              else if (code c =? 92)%N then regex_loop (negb b) r else regex_loop false r)
    by reflexivity.
  rewrite E in H. clear E.
  assert (X : forall b', regex_loop b' r = SOk q ->
              exists a x, c :: r = (a ++ [x]) ++ q /\ is_digit x = false /\ In "/"%char (a ++ [x])).
  { intros b' K. destruct (IH b' q K) as [a [x [-> [D J]]]]. exists (c :: a), x.
    repeat split; [exact D|now right]. }
  destruct (code c =? 47)%N eqn:C; [|destruct (code c =? 92)%N; eapply X; eassumption].
  destruct b; [eapply X; eassumption|].
  assert (Ec : c = "/"%char).
  { apply N.eqb_eq in C. unfold code in C. rewrite <- (ascii_N_embedding c), C. reflexivity. }
  subst c. destruct (skip (T "i") r) as [y|] eqn:F; injection H as <-.
  - apply skip_app in F. subst r. exists ["/"%char], "i"%char. repeat split. now left.
  - exists [], "/"%char. repeat split. now left.
Qed.
Lemma regex_token : forall it q, skip_regular_expression it = SOk (Some q) -> token it q.
Proof.
  intros it q H. unfold skip_regular_expression in H.
  destruct (skip (T "/") it) as [r|] eqn:F; [|discriminate]. apply skip_app in F.
  destruct (regex_loop false r) as [x|] eqn:G; [|discriminate]. injection H as <-.
  apply regex_end in G. destruct G as [a [y [-> [D _]]]]. subst it.
  exists ("/"%char :: a), y. now split.
Qed.

Lemma arglist_none : forall q, match q with c :: _ => c <> "["%char | [] => True end ->
  skip_arglist q = SOk None.
Proof.
  intros [|c q] H; [reflexivity|]. unfold skip_arglist.
  destruct (skip (T "[") (c :: q)) as [r|] eqn:E; [|reflexivity]. apply skip_app in E.
  injection E as -> _. easy.
Qed.

(** * Expanding macros *)

Definition careful_macros (m : macros) : Prop :=
  find_macro m [] = None /\ forall n v, find_macro m n = Some v -> simple v.

Section Expand.
Variable m : macros.
Variable pp : text -> pres text.
Hypothesis no_empty : find_macro m [] = None.
Hypothesis pp_simple : forall t, simple t -> safe simple (pp t).

Lemma variables_same : forall t, good t -> safe (eq t) (substitute_variables m pp t).
Proof.
  intros t G. unfold substitute_variables. generalize (S (length t)). intros f. revert t G.
  induction f as [|f IH]; intros t G; [exact I|]. cbn [substitute_variables_loop].
  destruct (skip_until (T "$") t) as [r|] eqn:F; [|reflexivity].
  destruct (skip_until_app _ _ _ F) as [a E].
  assert (X : skip (T "{") r = None /\ read_ident r = ([], r)).
  { destruct r as [|c r]; [now split|]. destruct G as [_ G].
    specialize (G a "$"%char c r E). unfold bad_pair in G.
    change (Ascii.eqb "$" "$") with true in G. cbn [andb] in G.
    destruct (is_ident_char c) eqn:D; [rewrite !orb_true_r in G; discriminate|].
    destruct (Ascii.eqb c "{") eqn:B; [rewrite !orb_true_r in G; discriminate|].
    split; [|cbn; now rewrite D]. destruct (skip (T "{") (c :: r)) as [y|] eqn:K; [|reflexivity].
    apply skip_app in K. injection K as -> _. discriminate. }
  destruct X as [-> ->]. rewrite no_empty.
  assert (S : suffix r t) by (exists (a ++ T "$"); now rewrite <- app_assoc).
  eapply safe_bind; [apply IH; now apply good_suffix with t|]. intros x <-. cbn.
  destruct S as [b ->]. now rewrite before_app.
Qed.

Lemma before_nonempty : forall c r q, token (c :: r) q -> exists s, before (c :: r) q = c :: s.
Proof.
  intros c r q [s [x [E _]]]. rewrite E, before_app. destruct s as [|d s]; injection E as <- _.
  - now exists [].
  - now exists (s ++ [x]).
Qed.

Lemma read_ident_word' : forall t i q, read_ident t = (i, q) -> Forall (fun c => is_ident_char c = true) i.
Proof.
  induction t as [|d t IH]; intros i q R; [injection R as <- <-; constructor|].
  cbn [read_ident] in R. destruct (is_ident_char d) eqn:D.
  - destruct (read_ident t) as [j s]. injection R as <- <-. constructor; [exact D|now apply (IH j s)].
  - injection R as <- <-. constructor.
Qed.

Lemma loop_good : forall b f it, good it ->
  safe (fun t => good t /\ begins it t) (preprocess_loop m pp f b it).
Proof.
  intros b. induction f as [|f IH]; intros it G; [exact I|]. cbn [preprocess_loop].
  destruct it as [|c r]; [split; [apply good_nil|exact I]|].
  destruct (read_ident (c :: r)) as [ident q] eqn:R.
  pose proof (read_ident_app _ _ _ R) as Ra. pose proof (read_ident_stop _ _ _ R) as Rs.
  destruct ident as [|i0 ident].
  - assert (NI : is_ident_char c = false).
    { cbn in Ra. subst q. exact Rs. }
    clear Ra Rs R q. apply safe_sres. intros s Hs.
    eapply safe_bind with (P := fun o => match o with Some q => token (c :: r) q | None => True end).
    { destruct s as [q|]; [now apply string_token|]. apply safe_sres. intros [q|] Ht; [now apply terminal_token|].
      destruct (skip_regular_expression (c :: r)) as [[q|]|] eqn:E; [|exact I|exact I].
      now apply regex_token. }
    intros [q|] Hq.
    + destruct (before_nonempty _ _ _ Hq) as [s0 Es].
      destruct Hq as [t [x [E D]]].
      assert (S : suffix q (c :: r)) by (exists (t ++ [x]); exact E).
      eapply safe_bind; [apply variables_same; now apply good_before|]. intros y <-.
      eapply safe_bind; [apply IH; now apply good_suffix with (c :: r)|]. intros rest [Gr Br].
      split.
      * assert (Eb : before (c :: r) q = t ++ [x]) by now rewrite E, before_app.
        rewrite Eb. apply good_append with q; try assumption. now rewrite <- E.
      * rewrite Es. cbn. now rewrite NI.
    + destruct (is_comment_char c); [split; [apply good_nil|exact I]|].
      assert (S : suffix r (c :: r)) by (apply suffix_cons, suffix_refl).
      eapply safe_bind; [apply IH; now apply good_suffix with (c :: r)|]. intros rest [Gr Br]. split.
      * apply (good_append [] c r rest); try assumption. now apply digit_ident.
      * cbn. now rewrite NI.
  - assert (F : Forall (fun c => is_ident_char c = true) (i0 :: ident)).
    { exact (read_ident_word' _ _ _ R). }
    assert (Q : match q with [] => True | c :: _ => is_ident_char c = false /\ c <> "["%char end).
    { destruct q as [|d q]; [exact I|]. split; [exact Rs|]. intros ->.
      destruct (exists_last (l := i0 :: ident) ltac:(discriminate)) as [a [x Ex]].
      rewrite Ex in F, Ra. apply Forall_app in F. destruct F as [_ F]. inversion_clear F as [|? ? Fx _].
      destruct G as [_ G]. specialize (G a x "["%char q). rewrite Ra, <- app_assoc in G.
      specialize (G eq_refl). unfold bad_pair in G. rewrite Fx in G. discriminate. }
    rewrite arglist_none by (destruct q; [exact I|apply Q]). cbn [of_sres pbind].
    assert (Si : simple (i0 :: ident)).
    { apply word_simple; [discriminate|exact F|]. rewrite Ra in G. destruct G as [G _].
      exact (short_part [] _ _ G). }
    eapply safe_bind; [now apply pp_simple|]. intros v Hv.
    eapply safe_bind; [apply IH; apply good_suffix with (c :: r); [now exists (i0 :: ident)|exact G]|].
    intros rest [Gr Br]. split; [now apply good_after with q|].
    assert (Ic : is_ident_char c = true).
    { injection Ra as -> _. now inversion_clear F. }
    destruct Hv as [_ [Fv Ev]]. destruct v as [|y v]; [inversion Ev|]. cbn. rewrite Ic.
    now inversion_clear Fv.
Qed.

Lemma simple_no_token : forall c r, simple_char c = true -> skip_string (c :: r) = SOk None /\
  skip_terminal_command (c :: r) = SOk None /\ skip_regular_expression (c :: r) = SOk None /\
  is_comment_char c = false /\ c <> "["%char.
Proof.
  intros c r H. unfold simple_char in H.
  destruct (is_quote c) eqn:Q; [discriminate|]. destruct (Ascii.eqb c "/") eqn:E1; [discriminate|].
  destruct (Ascii.eqb c "$") eqn:E2; [discriminate|]. destruct (Ascii.eqb c "[") eqn:E3; [discriminate|].
  destruct (is_comment_char c); [discriminate|].
  split; [cbn; now rewrite Q|]. split; [|split; [|split; [reflexivity|]]].
  - unfold skip_terminal_command. destruct (skip (T "$(") (c :: r)) as [x|] eqn:K; [|reflexivity].
    apply skip_app in K. injection K as -> _. discriminate.
  - unfold skip_regular_expression. destruct (skip (T "/") (c :: r)) as [x|] eqn:K; [|reflexivity].
    apply skip_app in K. injection K as -> _. discriminate.
  - intros ->. discriminate.
Qed.

Lemma loop_simple : forall b f it, short it -> Forall (fun c => simple_char c = true) it ->
  safe (fun t => Forall (fun c => simple_char c = true) t /\
                 (Exists (fun c => is_space c = false) it -> Exists (fun c => is_space c = false) t))
    (preprocess_loop m pp f b it).
Proof.
  intros b. induction f as [|f IH]; intros it S F; [exact I|]. cbn [preprocess_loop].
  destruct it as [|c r]; [split; [constructor|easy]|].
  destruct (read_ident (c :: r)) as [ident q] eqn:R.
  pose proof (read_ident_app _ _ _ R) as Ra. pose proof (read_ident_word' _ _ _ R) as Rw.
  assert (Sq : short q).
  { rewrite Ra in S. apply (short_part ident q []). now rewrite app_nil_r. }
  assert (Fq : Forall (fun c => simple_char c = true) q).
  { rewrite Ra in F. now apply Forall_app in F. }
  destruct ident as [|i0 ident].
  - inversion_clear F as [|? ? Fc Fr].
    destruct (simple_no_token c r Fc) as [-> [-> [-> [-> _]]]]. cbn [of_sres pbind].
    eapply safe_bind; [apply IH; [|exact Fr]|].
    { apply (short_part [c] r []). now rewrite app_nil_r. }
    intros t [A B]. split; [now constructor|]. intros E. inversion_clear E; [now constructor|].
    now apply Exists_cons_tl, B.
  - rewrite arglist_none.
    2:{ destruct q as [|d q]; [exact I|]. inversion_clear Fq as [|? ? Fd _].
        now apply (simple_no_token d q). }
    cbn [of_sres pbind].
    assert (Si : simple (i0 :: ident)).
    { apply word_simple; [discriminate|exact Rw|]. rewrite Ra in S. exact (short_part [] _ _ S). }
    eapply safe_bind; [now apply pp_simple|]. intros v [_ [Fv Ev]].
    eapply safe_bind; [now apply IH|]. intros t [A _]. split; [now apply Forall_app|].
    intros _. apply Exists_app. now left.
Qed.

Lemma skip_space_rest : forall t, Forall (fun c => simple_char c = true) t ->
  exists a, t = a ++ skip_space t /\ Forall (fun c => is_space c = true) a.
Proof.
  induction t as [|c t IH]; intros F; [now exists []|]. inversion_clear F as [|? ? Fc Ft].
  cbn [skip_space]. destruct (is_space c) eqn:E.
  - destruct (IH Ft) as [a [Ea Fa]]. exists (c :: a). split; [cbn; now rewrite <- Ea|now constructor].
  - destruct (simple_no_token c t Fc) as [_ [_ [_ [-> _]]]]. now exists [].
Qed.

Lemma range_simple : forall b t, simple t -> safe simple (preprocess_range m pp b t).
Proof.
  intros b t [Sh [F E]]. unfold preprocess_range.
  destruct (skip_space_rest t F) as [a [Ea Fa]]. remember (skip_space t) as u.
  assert (Su : short u).
  { rewrite Ea in Sh. apply (short_part a u []). now rewrite app_nil_r. }
  assert (Fu : Forall (fun c => simple_char c = true) u).
  { rewrite Ea in F. now apply Forall_app in F. }
  assert (Eu : Exists (fun c => is_space c = false) u).
  { rewrite Ea in E. apply Exists_app in E. destruct E as [E|E]; [|exact E].
    exfalso. apply Exists_exists in E. destruct E as [x [X1 X2]].
    rewrite Forall_forall in Fa. rewrite (Fa x X1) in X2. discriminate. }
  pose proof (loop_simple b (S (length u)) u Su Fu) as A.
  pose proof (loop_good b (S (length u)) u (simple_good u Su Fu)) as B.
  destruct (preprocess_loop m pp (S (length u)) b u) as [x| | |]; try easy.
  cbn in *. split; [apply B|]. split; [apply A|]. now apply A.
Qed.
Lemma range_good : forall b t, good t -> safe good (preprocess_range m pp b t).
Proof.
  intros b t G. unfold preprocess_range. eapply safe_impl; [|apply loop_good].
  - intros x H. apply H.
  - apply good_suffix with t; [apply skip_space_suffix|exact G].
Qed.
End Expand.

Lemma expand_simple : forall m, careful_macros m -> forall level t, simple t ->
  safe simple (preprocess_str m level t).
Proof.
  intros m [M1 M2]. induction level as [|l IH]; intros t H; [exact I|]. cbn [preprocess_str].
  destruct (read_ident t) as [[|c i] [|d q]]; try now apply range_simple.
  destruct (find_macro m t) eqn:F; [|exact H]. apply IH. eapply M2; eassumption.
Qed.
Lemma expand_good : forall m, careful_macros m -> forall level t, good t ->
  safe good (preprocess_str m level t).
Proof.
  intros m M. destruct level as [|l]; intros t H; [exact I|]. cbn [preprocess_str].
  pose proof (expand_simple m M l) as P. destruct M as [M1 M2].
  destruct (read_ident t) as [[|c i] [|d q]]; try now apply range_good.
  destruct (find_macro m t) eqn:F; [|exact H].
  eapply safe_impl; [|apply P; eapply M2; eassumption].
  intros x [A [B _]]. now apply simple_good.
Qed.

(** * The parts of parsing *)

Definition carefully (c : cstate) : Prop := careful_macros (c_macros c).

Lemma guard_fine : forall b, fine (guard b).
Proof. now intros []. Qed.
Lemma find_map_fine : forall m, careful_macros m -> forall t, good t -> fine (preprocess m t).
Proof.
  intros m M t G. pose proof (expand_good m M 30 t G) as H. unfold preprocess, fine.
  now destruct (preprocess_str m 30 t).
Qed.
Lemma preprocess_simple : forall m, careful_macros m -> forall t, simple t -> safe simple (preprocess m t).
Proof. intros m M t. unfold preprocess. now apply expand_simple. Qed.
Lemma preprocess_good : forall m, careful_macros m -> forall t, good t -> safe good (preprocess m t).
Proof. intros m M t. unfold preprocess. now apply expand_good. Qed.
Lemma preprocess_nil : forall m, preprocess m [] = POk [].
Proof. reflexivity. Qed.
Local Opaque preprocess_str preprocess.
Lemma good_word : forall t i q, read_ident t = (i, q) -> good t -> good i /\ good q.
Proof.
  intros t i q R G. apply read_ident_app in R. subst t. split; [now apply good_prefix in G|].
  apply (good_part i q []). now rewrite app_nil_r.
Qed.

Section Parse.
Variable typer : option (key * bool) -> text -> list stroke.
Variable regex_ok : text -> bool -> bool.
Variable read_file : text -> option (list text).
Variable current_system : text.
Hypothesis careful_files : forall f lines, read_file f = Some lines -> careful (skip_bom lines).

Lemma not_slash : forall s, match s with c :: _ => c <> "/"%char | [] => True end -> is_regex s = false.
Proof.
  intros [|c s] H; [reflexivity|]. unfold is_regex. destruct s as [|d s]; [reflexivity|].
  destruct (rev (c :: d :: s)) as [|x [|y l]]; try reflexivity.
  apply Ascii.eqb_neq in H. now rewrite H.
Qed.
Lemma check_fine : forall s, In "/"%char (tl s) -> is_regex s = true -> fine (check_regex regex_ok s).
Proof.
  intros [|c s] H R; [easy|]. cbn in H. unfold check_regex.
  destruct (rev s) as [|d q] eqn:E.
  { apply (f_equal (@rev ascii)) in E. rewrite rev_involutive in E. now subst s. }
  destruct (Ascii.eqb d "i") eqn:D; [|apply guard_fine]. destruct q as [|e q]; [|apply guard_fine].
  apply (f_equal (@rev ascii)) in E. rewrite rev_involutive in E. subst s. exfalso.
  apply Ascii.eqb_eq in D. subst d. destruct H as [H|[]]. discriminate.
Qed.

Lemma read_filter_fine : forall m b it, careful_macros m -> good it ->
  safe (fun z => suffix (snd z) it) (read_filter regex_ok m b it).
Proof.
  intros m b it M G. unfold read_filter, read_filter_string.
  destruct (skip_regular_expression it) as [[q|]|] eqn:F; [| |exact I]; cbn [of_sres pbind].
  { assert (X : exists a, it = a ++ q /\ In "/"%char (tl a)).
    { unfold skip_regular_expression in F.
      destruct (skip (T "/") it) as [r|] eqn:K; [|discriminate]. apply skip_app in K.
      destruct (regex_loop false r) as [x|] eqn:K'; [|discriminate]. injection F as <-.
      apply regex_end in K'. destruct K' as [a [y [-> [_ J]]]]. subst it.
      exists ("/"%char :: a ++ [y]). split; [reflexivity|exact J]. }
    destruct X as [a [-> J]]. rewrite before_app. destruct a as [|c a]; [exact I|].
    destruct (is_regex (c :: a)) eqn:R; [|now exists (c :: a)].
    apply fine_bind; [now apply check_fine|]. intros _ _. now exists (c :: a). }
  destruct (skip_string it) as [[q|]|] eqn:G1; [| |exact I]; cbn [of_sres pbind].
  { pose proof (skip_string_later _ _ G1) as L. apply later_suffix in L.
    assert (X : is_regex (removelast (tl (before it q))) = false).
    { apply not_slash. destruct it as [|c it]; [discriminate|]. cbn in G1.
      destruct (is_quote c) eqn:Q; [|discriminate].
      destruct (skip_until [c] it) as [x|] eqn:U; [|discriminate]. injection G1 as ->.
      destruct (skip_until_app _ _ _ U) as [a ->].
      replace (c :: a ++ [c] ++ q) with ((c :: a ++ [c]) ++ q) by (cbn; now rewrite <- app_assoc).
      rewrite before_app. cbn [tl]. rewrite removelast_last. destruct a as [|y a]; [exact I|].
      intros ->. destruct G as [_ G]. specialize (G [] c "/"%char (a ++ [c] ++ q) eq_refl).
      unfold bad_pair in G. rewrite Q in G. cbn in G. rewrite !orb_true_r in G. discriminate. }
    rewrite X. destruct (removelast (tl (before it q))); [exact I|exact L]. }
  destruct (read_ident it) as [i q] eqn:R. pose proof (read_ident_suffix _ _ _ R) as Sq.
  destruct (good_word _ _ _ R G) as [Gi _]. pose proof (read_ident_word' _ _ _ R) as W.
  destruct i as [|i0 i].
  { rewrite preprocess_nil. exact I. }
  assert (Si : simple (i0 :: i)) by (apply word_simple; [discriminate|exact W|apply Gi]).
  pose proof (preprocess_simple m M _ Si) as P.
  destruct (preprocess m (i0 :: i)) as [t| | |]; try easy. cbn [pbind]. cbn [safe] in P.
  destruct P as [_ [P _]]. destruct t as [|c t]; [exact I|]. inversion_clear P as [|? ? Pc _].
  assert (Q : is_quote c = false /\ c <> "/"%char).
  { unfold simple_char in Pc. destruct (is_quote c); [discriminate|]. split; [reflexivity|].
    intros ->. discriminate. }
  destruct Q as [Q1 Q2]. destruct (rev (c :: t)) as [|d x] eqn:E.
  { apply (f_equal (@length ascii)) in E. rewrite rev_length in E. discriminate. }
  rewrite Q1. cbn [pbind]. rewrite not_slash by exact Q2. exact Sq.
Qed.

Lemma modifier_fine : forall l t, fine (parse_modifier_list l t).
Proof.
  intros l t. unfold parse_modifier_list. generalize (S (length t)), (@nil event).
  intros f. revert t. induction f as [|f IH]; intros t acc; [exact I|]. cbn [modifier_loop].
  destruct (skip_space t) as [|c r]; [exact I|].
  destruct (skip (T "!") (c :: r)) as [x|].
  - destruct (read_ident x) as [name q]. destruct ((_ =? _)%N || _); [exact I|apply IH].
  - destruct (read_ident (c :: r)) as [name q]. destruct ((_ =? _)%N || _); [exact I|apply IH].
Qed.
Lemma forward_fine : forall f l t acc, fine (forward_list_loop f l t acc).
Proof.
  induction f as [|f IH]; intros l t acc; [exact I|]. cbn [forward_list_loop].
  destruct t as [|c r]; [exact I|]. destruct (read_ident (c :: r)) as [[|n0 name] q]; [exact I|].
  destruct (find_logical _ l); [apply IH|]. destruct (is_device_key _); [apply IH|exact I].
Qed.

Lemma sequence_fine : forall inp gk ty ck t, good t -> fine (parse_sequence inp gk ty ck t).
Proof.
  intros inp gk ty ck t G. pose proof (sequence_total inp gk ty ck t) as H.
  destruct (parse_sequence inp gk ty ck t); try exact I. now apply good_not_huge in H.
Qed.
Lemma good_skip : forall t, good t -> good (skip_space t).
Proof. intros t. apply good_suffix, skip_space_suffix. Qed.
Lemma input_fine : forall c t, good t -> fine (parse_input typer c t).
Proof.
  intros c t G. unfold parse_input. apply fine_bind; [now apply sequence_fine, good_skip|].
  intros; exact I.
Qed.
Lemma output_fine : forall c t, good t -> carefully c ->
  safe (fun x => carefully (fst x)) (parse_output typer c t).
Proof.
  intros c t G H. unfold parse_output. apply fine_bind; [now apply sequence_fine, good_skip|].
  intros [sq cmds] _. destruct (contains_key sq k_ContextActive); [exact I|exact H].
Qed.

Lemma command_mapping_fine : forall name o c, carefully c ->
  safe carefully (add_command_mapping name o c).
Proof.
  intros name o c H. unfold add_command_mapping. destruct (find_named name c); [|exact I].
  destruct (existsb _ _); [exact I|]. exact H.
Qed.
Lemma command_and_mapping_fine : forall i o c, good i -> good o -> carefully c ->
  safe carefully (parse_command_and_mapping typer i o c).
Proof.
  intros i o c Gi Go H. unfold parse_command_and_mapping. apply fine_bind; [now apply input_fine|].
  intros x _. destruct (parse_command_name c o) as [|a b].
  - eapply safe_bind; [now apply output_fine|]. intros [c' o'] H'. exact H'.
  - unfold add_command. now destruct (find_named (a :: b) c).
Qed.
Lemma removelast_part : forall (t : text), exists b, t = removelast t ++ b.
Proof.
  intros t. destruct t as [|c t _] using rev_ind; [now exists []|]. exists [c].
  now rewrite removelast_last.
Qed.
Lemma good_removelast : forall t, good t -> good (removelast t).
Proof.
  intros t G. destruct (removelast_part t) as [b E]. rewrite E in G. now apply good_prefix in G.
Qed.

Lemma mapping_fine : forall t c, good t -> carefully c -> safe carefully (parse_mapping typer t c).
Proof.
  intros t c G H. unfold parse_mapping. destruct (read_ident t) as [ident q] eqn:R.
  destruct (good_word _ _ _ R G) as [Gi Gq]. pose proof (read_ident_suffix _ _ _ R) as Sq.
  assert (X : safe carefully match skip_until (T ">>") (skip_space q) with
       | Some r => parse_command_and_mapping typer (removelast (removelast (before t r))) r c
       | None => PErr end).
  { destruct (skip_until _ _) as [r|] eqn:F; [|exact I]. apply skip_until_suffix in F.
    assert (Sr : suffix r t).
    { eapply suffix_trans; [exact F|]. eapply suffix_trans; [apply skip_space_suffix|exact Sq]. }
    apply command_and_mapping_fine; [|now apply good_suffix with t|exact H].
    now apply good_removelast, good_removelast, good_before. }
  destruct ident as [|i0 ident]; [exact X|].
  destruct (skip (T ">>") (skip_space q)) as [r|] eqn:F; [|exact X]. clear X.
  assert (Gr : good r).
  { apply good_suffix with (skip_space q); [now apply skip_suffix in F|now apply good_skip]. }
  destruct (find_named _ c).
  - eapply safe_bind; [now apply output_fine|]. intros [c' o'] H'. now apply command_mapping_fine.
  - destruct (starts_with_lower_case _); [|now apply command_and_mapping_fine].
    destruct (c_unmapped c); [|exact I].
    eapply safe_bind; [now apply output_fine|]. intros x H'. exact H'.
Qed.
Lemma mappings_fine : forall f it c, good it -> carefully c ->
  safe carefully (mappings_loop typer f it c).
Proof.
  induction f as [|f IH]; intros it c G H; [exact I|]. cbn [mappings_loop].
  destruct it as [|x r]; [exact H|]. apply safe_sres. intros o F.
  assert (Sq : suffix (match o with Some q => q | None => [] end) (x :: r)).
  { destruct o as [q|]; [|apply suffix_nil]. apply later_suffix. now apply nis_later in F. }
  eapply safe_bind; [apply mapping_fine; [now apply good_before|exact H]|]. intros c' H'.
  apply IH; [now apply good_suffix with (x :: r)|exact H'].
Qed.

Lemma value_good : forall it v q, read_value it = SOk (v, q) -> good it -> good v /\ suffix q it.
Proof.
  intros it v q H G. unfold read_value in H. destruct it as [|c r].
  - injection H as <- <-. split; [apply good_nil|apply suffix_refl].
  - destruct (is_quote c).
    + destruct (skip_until [c] r) as [x|] eqn:F; [|discriminate]. injection H as <- <-.
      apply skip_until_suffix in F. assert (Gr : good r).
      { apply good_suffix with (c :: r); [apply suffix_cons, suffix_refl|exact G]. }
      split; [now apply good_removelast, good_before|now apply suffix_cons].
    + assert (H' : read_ident (c :: r) = (v, q)) by now injection H. clear H. rename H' into H.
      split; [now apply (good_word _ _ _ H)|eapply read_ident_suffix; eassumption].
Qed.

Lemma attributes_fine : forall f c it x, good it -> carefully c ->
  fine (attributes_loop regex_ok current_system f c it x).
Proof.
  induction f as [|f IH]; intros c it x G H; [exact I|]. cbn [attributes_loop].
  destruct (read_ident it) as [attrib q] eqn:R. destruct attrib as [|a0 attrib]; [exact I|].
  destruct (good_word _ _ _ R G) as [_ Gq]. apply good_skip in Gq. revert Gq.
  generalize (skip_space q). clear q R G. intros q G.
  assert (X : exists b r', match skip (T "!") q with
                           | Some r => (true, r) | None => (false, q) end = (b, r')
                           /\ suffix r' q).
  { destruct (skip (T "!") q) as [y|] eqn:F; [exists true, y|exists false, q];
      (split; [reflexivity|]); [now apply skip_suffix in F|apply suffix_refl]. }
  destruct X as [inv [r' [X Y]]]. rewrite X.
  destruct (skip (T "=") r') as [r1|] eqn:E; [|exact I]. apply skip_suffix in E.
  assert (G1 : good (skip_space r1)).
  { apply good_skip. apply good_suffix with r'; [exact E|]. now apply good_suffix with q. }
  revert G1. generalize (skip_space r1). clear E r1 X Y r' G q. intros q G.
  assert (B : forall g : filter * text -> cctx * text, (forall z, snd (g z) = snd z) ->
    safe (fun y => suffix (snd y) q)
     (do z <- read_filter regex_ok (c_macros c) inv q;; POk (g z))).
  { intros g Eg. eapply safe_bind; [now apply read_filter_fine|]. intros z Z. cbn. now rewrite Eg. }
  eapply safe_bind with (P := fun y => suffix (snd y) q).
  - destruct (text_eqb _ (T "class")); [now apply (B (fun z => (_, snd z)))|].
    destruct (text_eqb _ (T "title")); [now apply (B (fun z => (_, snd z)))|].
    destruct (text_eqb _ (T "path")); [now apply (B (fun z => (_, snd z)))|].
    destruct (text_eqb _ (T "system")).
    { apply safe_sres. intros [v y] F. now apply value_good in F. }
    destruct (text_eqb _ (T "device")); [now apply (B (fun z => (_, snd z)))|].
    destruct (text_in _ _); [now apply (B (fun z => (_, snd z)))|].
    destruct (text_eqb _ (T "modifier")); [|exact I].
    apply safe_sres. intros [v y] F. apply value_good in F; [|exact G]. destruct F as [Gv F].
    apply fine_bind; [now apply find_map_fine|]. intros t _.
    apply fine_bind; [apply modifier_fine|]. intros l _. exact F.
  - intros [x' y] P. cbn [snd] in P.
    assert (Gy : good (skip_space y)) by (apply good_skip; now apply good_suffix with q).
    destruct (skip (T "]") (skip_space y)); [exact I|].
    assert (W : forall z, good z ->
                fine (match skip_space z with
                      | [] => PErr
                      | q0 => attributes_loop regex_ok current_system f c q0 x'
                      end)).
    { intros z Z. apply good_skip in Z. destruct (skip_space z) as [|c0 z0]; [exact I|].
      now apply IH. }
    destruct (skip (T ",") (skip_space y)) as [z|] eqn:F; [|now apply W].
    apply W. apply skip_suffix in F. now apply good_suffix with (skip_space y).
Qed.

Lemma context_fine : forall it c, good it -> carefully c ->
  safe carefully (parse_context regex_ok current_system it c).
Proof.
  intros it c G H. unfold parse_context. apply fine_bind.
  - destruct (skip (T "default") _) as [q|].
    + now destruct (skip (T "]") (skip_space q)).
    + destruct (skip (T "stage") _) as [q|].
      * now destruct (skip (T "]") (skip_space q)).
      * now apply attributes_fine; [apply good_skip|].
  - intros [x q] _. destruct (skip_space q); [exact H|exact I].
Qed.

Lemma bool_fine : forall it, fine (read_optional_bool it).
Proof.
  intros it. unfold read_optional_bool. destruct (read_ident it) as [v q].
  destruct (_ || _); [exact I|]. now destruct (text_eqb v (T "false")).
Qed.

Section Lines.
Variable parse_lines : list text -> cstate -> pres cstate.
Hypothesis lines_ok : forall l c, careful (skip_bom l) -> carefully c -> safe carefully (parse_lines l c).

Lemma directive_fine : forall it c, good it -> carefully c ->
  safe carefully (parse_directive typer regex_ok read_file parse_lines it c).
Proof.
  intros it c G H. unfold parse_directive. destruct (negb (c_sysmatch c)); [exact H|].
  destruct (read_ident it) as [ident q] eqn:R.
  destruct (good_word _ _ _ R G) as [_ Gq]. apply good_skip in Gq.
  eapply safe_bind with (P := fun y => carefully (fst y)).
  2:{ intros [c' q'] H'. destruct (skip_space q'); [exact H'|exact I]. }
  assert (B : forall a b, safe (fun y : cstate * text => carefully (fst y))
     (do z <- read_filter regex_ok (c_macros c) a (skip_space q);;
      POk (c_set_grab (c_grab c ++ [(fst z, b)]) c, snd z))).
  { intros a b. eapply safe_bind; [now apply read_filter_fine|]. intros z _. exact H. }
  destruct (text_eqb ident (T "include")).
  { apply safe_sres. intros [f y] _. cbn [fst snd].
    destruct (read_file f) as [ls|] eqn:F; [|exact I].
    eapply safe_bind; [apply lines_ok; [eapply careful_files; eassumption|exact H]|].
    intros c' H'. exact H'. }
  destruct (text_eqb ident (T "grab-device")); [apply B|].
  destruct (text_eqb ident (T "skip-device")); [apply B|].
  destruct (text_eqb ident (T "grab-device-id")); [apply B|].
  destruct (text_eqb ident (T "skip-device-id")); [apply B|].
  destruct (text_eqb ident (T "enforce-lowercase-commands")).
  { apply fine_bind; [apply bool_fine|]. intros z _. exact H. }
  destruct (text_eqb ident (T "allow-unmapped-commands")).
  { apply fine_bind; [apply bool_fine|]. intros z _. exact H. }
  destruct (text_eqb ident (T "forward-modifiers")).
  { apply fine_bind; [apply forward_fine|]. intros z _. exact H. }
  destruct (text_eqb ident (T "done")); [exact H|].
  destruct (text_eqb ident (T "compose-key")).
  { apply fine_bind; [now apply input_fine|]. intros l _.
    destruct l as [|a [|b [|d [|e [|? ?]]]]]; try exact I.
    - destruct (negb _); [exact H|exact I].
    - destruct (_ =? _)%N; [exact H|exact I]. }
  destruct (text_in ident _).
  { apply fine_bind; [apply bool_fine|]. intros z _. cbn [safe fst]. now destruct (fst z). }
  destruct (text_eqb ident (T "options")); [|exact I].
  destruct (forallb _ _); [exact H|exact I].
Qed.

Lemma logical_fine : forall f name left it c, good it -> carefully c ->
  safe carefully (logical_loop f name left it c).
Proof.
  induction f as [|f IH]; intros name left it c G H; [exact I|]. cbn [logical_loop].
  destruct (read_ident (skip_space it)) as [i q] eqn:R.
  destruct (good_word _ _ _ R (good_skip _ G)) as [Gi Gq]. apply good_skip in Gq.
  apply fine_bind; [now apply find_map_fine|]. intros n _. destruct (_ =? 0)%N; [exact I|].
  destruct (skip (T "|") (skip_space q)) as [r|] eqn:F; cbn [add_logical_key].
  - apply IH; [|exact H]. apply skip_suffix in F. now apply good_suffix with (skip_space q).
  - destruct (skip_space (skip_space q)); [exact H|exact I].
Qed.
Lemma logical_def_fine : forall name it c, good it -> carefully c ->
  safe (fun o => match o with Some c' => carefully c' | None => True end)
       (parse_logical_key_definition name it c).
Proof.
  intros name it c G H. unfold parse_logical_key_definition.
  destruct (negb _); [exact I|]. destruct (read_ident it) as [i q] eqn:R.
  destruct (good_word _ _ _ R G) as [Gi Gq]. apply good_skip in Gq.
  apply fine_bind; [now apply find_map_fine|]. intros n _.
  destruct (skip (T "|") (skip_space q)) as [r|] eqn:F; [|exact I].
  destruct (_ =? 0)%N; [exact I|]. eapply safe_bind.
  - apply logical_fine; [|exact H]. apply skip_suffix in F. now apply good_suffix with (skip_space q).
  - intros c' H'. exact H'.
Qed.

Lemma macro_fine : forall name it c, name <> [] -> simple it -> carefully c ->
  safe carefully (parse_macro name it c).
Proof.
  intros name it c N S H. unfold parse_macro. eapply safe_bind.
  - apply range_simple; [apply H|intros u; now apply preprocess_simple|exact S].
  - intros t Ht. destruct (_ || _); [|exact H]. cbn [safe]. unfold carefully. cbn [c_macros c_set_macros].
    split.
    + rewrite find_set. destruct (text_eqb [] name) eqn:E; [|apply H].
      destruct name; [easy|discriminate].
    + intros n v. rewrite find_set. destruct (text_eqb n name); [|apply H].
      intros E. injection E as <-. exact Ht.
Qed.

Lemma skip_space_spaces : forall l c r, skip_space l = c :: r ->
  exists a, l = a ++ c :: r /\ Forall (fun d => is_space d = true) a.
Proof.
  induction l as [|d l IH]; intros c r H; [discriminate|]. cbn [skip_space] in H.
  destruct (is_space d) eqn:S.
  - destruct (IH c r H) as [a [-> F]]. exists (d :: a). split; [reflexivity|now constructor].
  - destruct (is_comment_char d); [discriminate|]. exists []. now split.
Qed.
Lemma skip_space_simple : forall t, simple t -> simple (skip_space t).
Proof.
  intros t [S [F E]]. destruct (skip_space_rest t F) as [a [Ea Fa]]. rewrite Ea in S, F, E.
  revert S F E. generalize (skip_space t). intros u S F E.
  split; [|split].
  - apply (short_part a u []). now rewrite app_nil_r.
  - now apply Forall_app in F.
  - apply Exists_app in E. destruct E as [E|E]; [|exact E].
    exfalso. apply Exists_exists in E. destruct E as [x [X1 X2]].
    rewrite Forall_forall in Fa. rewrite (Fa x X1) in X2. discriminate.
Qed.

Lemma line_fine : forall l c, careful_line l -> carefully c ->
  safe carefully (parse_line typer regex_ok read_file current_system parse_lines l c).
Proof.
  intros l c [G D] H. unfold parse_line. destruct (read_ident (skip_space l)) as [ident q] eqn:R.
  destruct (skip (T "=") (skip_space q)) as [r|] eqn:F.
  - apply skip_app in F. change (T "=" ++ r) with ("="%char :: r) in F.
    destruct (skip_space_spaces _ _ _ F) as [b [-> Fb]].
    pose proof (read_ident_app _ _ _ R) as A. pose proof (read_ident_word' _ _ _ R) as W.
    assert (X : exists a, l = a ++ ident ++ b ++ "="%char :: r /\ Forall (fun d => is_space d = true) a).
    { destruct (skip_space l) as [|c0 l0] eqn:E.
      - destruct ident; [|discriminate]. cbn in A. now destruct b.
      - destruct (skip_space_spaces _ _ _ E) as [a [-> Fa]]. exists a. split; [|exact Fa].
        now rewrite A. }
    destruct X as [a [El Fa]]. destruct (D ident r) as [Ne Sr].
    { exists a, b. repeat split; assumption. }
    pose proof (skip_space_simple r Sr) as Sr'.
    eapply safe_bind; [apply logical_def_fine; [|exact H]|].
    { destruct Sr' as [S1 [S2 _]]. now apply simple_good. }
    intros [c'|] H'; [exact H'|]. now apply macro_fine.
  - eapply safe_bind; [apply preprocess_good; [exact H|exact G]|]. intros t Gt. apply good_skip in Gt.
    destruct (skip (T "@") (skip_space t)) as [r|] eqn:K.
    { apply directive_fine; [|exact H]. apply skip_suffix in K. now apply good_suffix with (skip_space t). }
    destruct (skip (T "[") (skip_space t)) as [r|] eqn:K'.
    + eapply safe_bind; [apply context_fine; [|exact H]|].
      { apply skip_suffix in K'. now apply good_suffix with (skip_space t). }
      intros c' H'. destruct (back (c_contexts c')) as [x|]; [|exact H']. destruct (cc_stage x); [exact H'|].
      destruct (c_after_empty c'); exact H'.
    + now apply mappings_fine.
Qed.
End Lines.

Lemma lines_fine : forall pl, (forall l c, careful_line l -> carefully c -> safe carefully (pl l c)) ->
  forall lines prev c, Forall careful_line (whole_lines lines prev) -> carefully c ->
  safe carefully (lines_loop pl lines prev c).
Proof.
  intros pl P. induction lines as [|l lines IH]; intros prev c F H; [exact H|].
  cbn [lines_loop whole_lines] in *. destruct (c_done c); [exact H|].
  destruct (trim_space l) as [|x t _] using rev_ind.
  - cbn in *. inversion_clear F. eapply safe_bind; [now apply P|]. intros c' H'. now apply IH.
  - rewrite rev_app_distr in F. cbn [rev app] in F. rewrite back_last.
    destruct (code x =? 92)%N.
    + apply IH; [|exact H]. unfold pop_back. rewrite removelast_last. now rewrite rev_involutive in F.
    + inversion_clear F. eapply safe_bind; [now apply P|]. intros c' H'. now apply IH.
Qed.

Theorem file_fine : forall level lines c, careful (skip_bom lines) -> carefully c ->
  safe carefully (parse_file typer regex_ok read_file current_system level lines c).
Proof.
  induction level as [|level IH]; intros lines c F H; cbn [parse_file];
    (apply lines_fine; [|exact F|exact H]); intros l c' N H';
    (apply line_fine; [|exact N|exact H']).
  - intros; exact I.
  - exact IH.
Qed.

Theorem config_fine : forall t, careful (skip_bom (split_lines t [])) ->
  fine (parse_config typer regex_ok read_file current_system t).
Proof.
  intros t F. unfold parse_config. eapply safe_bind.
  - apply file_fine; [exact F|]. split; [reflexivity|]. intros n v E. discriminate.
  - intros c _. unfold finish_config. now destruct (_ && _).
Qed.
End Parse.
