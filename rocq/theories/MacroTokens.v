(** Argument lists as lists of tokens: a token is a character outside of strings,
    together with the string directly in front of it. *)
From Coq Require Import String Ascii List Arith NArith ZArith Bool Lia.
From Verif Require Import Base Text TextSpec TextProofs ParseSeq Config MacroSpec.
Import ListNotations.
Local Open Scope nat_scope.

Definition tok : Type := (text * ascii)%type.
Definition tok_ok (t : tok) : Prop :=
  (fst t = [] /\ ~ quotes (snd t)) \/
  exists q s, quotes q /\ ~ In q s /\ fst t = q :: s ++ [q].
Definition render (l : list tok) : text := flat_map (fun t => fst t ++ [snd t]) l.

Lemma render_app : forall a b, render (a ++ b) = render a ++ render b.
Proof. intros a b. apply flat_map_app. Qed.
Lemma render_cons : forall s c l, render ((s, c) :: l) = s ++ c :: render l.
Proof. intros s c l. cbn [render flat_map fst snd]. now rewrite <- app_assoc. Qed.

Lemma eqb_refl' : forall c, Ascii.eqb c c = true.
Proof. intros c. apply Ascii.eqb_refl. Qed.

Lemma skip_until_char : forall q s r, ~ In q s -> skip_until [q] (s ++ q :: r) = Some r.
Proof.
  intros q s r. induction s as [|c s IH]; intros N.
  - cbn. now rewrite eqb_refl'.
  - cbn [app skip_until skip]. destruct (Ascii.eqb_spec q c) as [E|E].
    + subst. elim N. now left.
    + apply IH. intros H. apply N. now right.
Qed.

Lemma skip_until_char_inv : forall q it r, skip_until [q] it = Some r ->
  exists s, it = s ++ q :: r /\ ~ In q s.
Proof.
  intros q it. induction it as [|c it IH]; intros r H; [discriminate|].
  cbn [skip_until skip] in H. destruct (Ascii.eqb_spec q c) as [E|E].
  - injection H as <-. subst. exists []. split; [reflexivity|easy].
  - destruct (IH r H) as [s [-> N]]. exists (c :: s). split; [reflexivity|].
    intros [F|F]; [now subst|easy].
Qed.

(** * skip_until_not_in_string *)

Definition nis_next (it : text) : sres text :=
  match it with
  | c :: r => if is_quote c
              then match skip_until [c] r with Some q => SOk q | None => SThrow end
              else SOk it
  | [] => SOk it
  end.

Lemma nis_next_suffix : forall it q, nis_next it = SOk q -> suffix q it.
Proof.
  intros it q H. unfold nis_next in H. destruct it as [|c r].
  - injection H as <-. apply suffix_refl.
  - destruct (is_quote c).
    + destruct (skip_until [c] r) as [x|] eqn:F; [|discriminate]. injection H as <-.
      apply suffix_cons. eapply skip_until_suffix; eassumption.
    + injection H as <-. apply suffix_refl.
Qed.

Lemma nis_fuel_enough : forall p f g it, length it < f -> length it < g ->
  skip_until_nis_fuel f p it = skip_until_nis_fuel g p it.
Proof.
  intros p. induction f as [|f IH]; intros g it L M; [lia|]. destruct g as [|g]; [lia|].
  cbn [skip_until_nis_fuel]. fold (nis_next it).
  destruct (nis_next it) as [x|] eqn:F; [|reflexivity].
  destruct (skip p x); [reflexivity|]. destruct x as [|c r]; [reflexivity|].
  apply nis_next_suffix, suffix_length in F. cbn in F. apply IH; lia.
Qed.

Lemma nis_eq : forall p it, skip_until_not_in_string p it =
  match nis_next it with
  | SThrow => SThrow
  | SOk x => match skip p x with
             | Some q => SOk (Some q)
             | None => match x with [] => SOk None | _ :: r => skip_until_not_in_string p r end
             end
  end.
Proof.
  intros p it. unfold skip_until_not_in_string at 1. cbn [skip_until_nis_fuel].
  fold (nis_next it). destruct (nis_next it) as [x|] eqn:F; [|reflexivity].
  destruct (skip p x); [reflexivity|]. destruct x as [|c r]; [reflexivity|].
  apply nis_next_suffix, suffix_length in F. cbn in F. apply nis_fuel_enough; cbn; lia.
Qed.

Lemma nis_next_tok : forall s c r, tok_ok (s, c) -> nis_next (s ++ c :: r) = SOk (c :: r).
Proof.
  intros s c r [[H N]|[q [x [Q [N H]]]]]; cbn [fst snd] in *; subst s.
  - cbn [app nis_next]. unfold quotes in N. destruct (is_quote c); [easy|reflexivity].
  - cbn [app nis_next]. unfold quotes in Q. rewrite Q.
    replace ((x ++ [q]) ++ c :: r) with (x ++ q :: c :: r) by now rewrite <- app_assoc.
    now rewrite skip_until_char.
Qed.

Lemma nis_tok : forall p s c r, tok_ok (s, c) ->
  skip_until_not_in_string [p] (s ++ c :: r) =
  if Ascii.eqb p c then SOk (Some r) else skip_until_not_in_string [p] r.
Proof.
  intros p s c r H. rewrite nis_eq, nis_next_tok by exact H. cbn [skip].
  destruct (Ascii.eqb p c); reflexivity.
Qed.

Lemma nis_app : forall p l r, Forall tok_ok l -> Forall (fun t => snd t <> p) l ->
  skip_until_not_in_string [p] (render l ++ r) = skip_until_not_in_string [p] r.
Proof.
  intros p l r H N. induction l as [|[s c] l IH]; [reflexivity|].
  inversion_clear H as [|? ? Ho Hl]. inversion_clear N as [|? ? No Nl].
  rewrite render_cons, <- app_assoc. cbn [app]. rewrite nis_tok by exact Ho.
  cbn [snd] in No. destruct (Ascii.eqb_spec p c) as [E|E]; [now subst|]. now apply IH.
Qed.

Lemma nis_found : forall p a s b r, Forall tok_ok a -> Forall (fun t => snd t <> p) a ->
  tok_ok (s, p) ->
  skip_until_not_in_string [p] (render (a ++ (s, p) :: b) ++ r) = SOk (Some (render b ++ r)).
Proof.
  intros p a s b r H N O. rewrite render_app, <- app_assoc, nis_app by assumption.
  rewrite render_cons, <- app_assoc. cbn [app]. rewrite nis_tok by exact O.
  now rewrite eqb_refl'.
Qed.

Lemma nis_nil : forall p, skip_until_not_in_string [p] [] = SOk None.
Proof. reflexivity. Qed.

Lemma split_char : forall p (l : list tok),
  Forall (fun t => snd t <> p) l \/
  exists a s b, l = a ++ (s, p) :: b /\ Forall (fun t => snd t <> p) a.
Proof.
  intros p l. induction l as [|[s c] l IH]; [now left|].
  destruct (Ascii.eqb_spec c p) as [E|E].
  - right. subst. exists [], s, l. now split.
  - destruct IH as [IH|[a [s' [b [-> N]]]]].
    + left. now constructor.
    + right. exists ((s, c) :: a), s', b. split; [reflexivity|]. now constructor.
Qed.

Lemma nis_render : forall p l, Forall tok_ok l ->
  (skip_until_not_in_string [p] (render l) = SOk None /\ Forall (fun t => snd t <> p) l) \/
  exists a s b, l = a ++ (s, p) :: b /\ Forall (fun t => snd t <> p) a /\
                skip_until_not_in_string [p] (render l) = SOk (Some (render b)).
Proof.
  intros p l H. destruct (split_char p l) as [N|[a [s [b [-> N]]]]].
  - left. split; [|exact N]. rewrite <- (app_nil_r (render l)). now rewrite nis_app.
  - right. exists a, s, b. split; [reflexivity|]. split; [exact N|].
    apply Forall_app in H. destruct H as [Ha Hb]. inversion_clear Hb as [|? ? Ho Hb'].
    rewrite <- (app_nil_r (render (a ++ _))). rewrite nis_found by assumption.
    now rewrite app_nil_r.
Qed.

Lemma nis_inv : forall p it q, skip_until_not_in_string [p] it = SOk (Some q) ->
  exists a s, it = render (a ++ [(s, p)]) ++ q /\ Forall tok_ok (a ++ [(s, p)])
              /\ Forall (fun t => snd t <> p) a.
Proof.
  intros p it. remember (length it) as n eqn:L. revert it L.
  induction n as [n IH] using lt_wf_ind. intros it L q H. rewrite nis_eq in H.
  destruct (nis_next it) as [x|] eqn:F; [|discriminate].
  assert (P : x = [] \/ exists s c r, x = c :: r /\ it = s ++ c :: r /\ tok_ok (s, c)).
  { destruct x as [|c r]; [now left|]. right. unfold nis_next in F.
    destruct it as [|d it]; [discriminate|]. destruct (is_quote d) eqn:Q.
    - destruct (skip_until [d] it) as [y|] eqn:G; [|discriminate]. injection F as ->.
      apply skip_until_char_inv in G. destruct G as [s [-> N]].
      exists (d :: s ++ [d]), c, r. split; [reflexivity|]. split.
      + cbn. now rewrite <- app_assoc.
      + right. now exists d, s.
    - injection F as -> ->. exists [], c, r. repeat split. left. split; [reflexivity|].
      cbn. unfold quotes. now rewrite Q. }
  destruct P as [->|[s [c [r [-> [-> O]]]]]]; [discriminate|]. cbn [skip] in H.
  destruct (Ascii.eqb_spec p c) as [E|E].
  - injection H as <-. subst. exists [], s. split.
    + cbn [app]. now rewrite render_cons, <- app_assoc.
    + split; [now constructor|constructor].
  - assert (M : length r < n) by (subst; rewrite app_length; cbn; lia).
    destruct (IH (length r) M r eq_refl q H) as [a [s' [-> [Ha Na]]]].
    exists ((s, c) :: a), s'. split; [|split].
    + cbn [app]. rewrite render_cons, <- app_assoc. reflexivity.
    + cbn [app]. now constructor.
    + constructor; [now apply not_eq_sym|exact Na].
Qed.

(** * skip_arglist *)

(** Do the characters close [n] open brackets exactly at the end? *)
Fixpoint closes (n : nat) (cs : list ascii) : bool :=
  match cs with
  | [] => false
  | c :: r =>
      if Ascii.eqb c "]" then
        match n with
        | O => false
        | S O => match r with [] => true | _ => false end
        | S m => closes m r
        end
      else if Ascii.eqb c "[" then closes (S n) r
      else closes n r
  end.
Definition chars (l : list tok) : list ascii := map snd l.
Definition plain (t : tok) : Prop := snd t <> "]"%char /\ snd t <> "["%char.

Lemma closes_plain : forall a cs n, Forall plain a -> closes n (chars a ++ cs) = closes n cs.
Proof.
  induction a as [|[s c] a IH]; intros cs n H; [reflexivity|].
  inversion_clear H as [|? ? [H1 H2] Ha]. cbn [snd] in *.
  change (chars ((s, c) :: a) ++ cs) with (c :: chars a ++ cs). cbn [closes].
  destruct (Ascii.eqb_spec c "]") as [E|E]; [easy|].
  destruct (Ascii.eqb_spec c "[") as [E'|E']; [easy|]. now apply IH.
Qed.

Lemma plain_of : forall a, Forall (fun t => snd t <> "]"%char) a ->
  Forall (fun t => snd t <> "["%char) a -> Forall plain a.
Proof.
  induction a as [|t a IH]; intros H K; [constructor|].
  inversion_clear H. inversion_clear K. constructor; [now split|now apply IH].
Qed.
Lemma plain_close : forall a, Forall plain a -> Forall (fun t => snd t <> "]"%char) a.
Proof. intros a. apply Forall_impl. now intros t []. Qed.
Lemma plain_open : forall a, Forall plain a -> Forall (fun t => snd t <> "["%char) a.
Proof. intros a. apply Forall_impl. now intros t []. Qed.

(** The first bracket of a closed list *)
Lemma closes_first : forall n l, closes n (chars l) = true ->
  exists a s c b, l = a ++ (s, c) :: b /\ Forall plain a /\
    ((c = "["%char /\ closes (S n) (chars b) = true) \/
     (c = "]"%char /\ ((n = 1 /\ b = []) \/ exists m, n = S (S m) /\ closes (S m) (chars b) = true))).
Proof.
  intros n l. induction l as [|[s c] l IH]; intros H; [discriminate|].
  change (chars ((s, c) :: l)) with (c :: chars l) in H. cbn [closes] in H.
  destruct (Ascii.eqb_spec c "]") as [E|E].
  - exists [], s, c, l. split; [reflexivity|]. split; [constructor|]. right. split; [exact E|].
    destruct n as [|[|m]]; [discriminate| |].
    + left. split; [reflexivity|]. now destruct l.
    + right. now exists m.
  - destruct (Ascii.eqb_spec c "[") as [E'|E'].
    + exists [], s, c, l. split; [reflexivity|]. split; [constructor|]. now left.
    + destruct (IH H) as [a [s' [c' [b [-> [P Q]]]]]]. exists ((s, c) :: a), s', c', b.
      split; [reflexivity|]. split; [constructor; [now split|exact P]|exact Q].
Qed.

Lemma arglist_complete : forall f l n r, Forall tok_ok l -> closes n (chars l) = true ->
  skip_until_not_in_string ["["%char] r <> SThrow ->
  length (render l) < f -> arglist_loop f n (render l ++ r) = SOk (Some r).
Proof.
  induction f as [|f IH]; intros l n r H C R L; [lia|]. cbn [arglist_loop].
  change (T "]") with ["]"%char]. change (T "[") with ["["%char].
  destruct (closes_first n l C) as [a [s [c [b [-> [P Q]]]]]].
  pose proof H as H0. apply Forall_app in H0. destruct H0 as [Ha H0].
  inversion_clear H0 as [|? ? Ho Hb].
  rewrite render_app, app_length, render_cons, app_length in L. cbn [length] in L.
  destruct Q as [[-> C']|[-> Q]].
  - assert (X : exists cl, skip_until_not_in_string ["]"%char] (render b ++ r) = SOk (Some cl)
                           /\ length cl < length (render b ++ r)).
    { destruct (split_char "]"%char b) as [N|[a' [s' [b' [-> N]]]]].
      - exfalso. clear - N C'. revert N C'. generalize (S n). induction b as [|[s c] b IHb];
          intros m N C'; [discriminate|]. inversion_clear N as [|? ? N1 N2]. cbn [snd] in N1.
        change (chars ((s, c) :: b)) with (c :: chars b) in C'. cbn [closes] in C'.
        destruct (Ascii.eqb_spec c "]") as [E|E]; [easy|].
        destruct (Ascii.eqb c "["); eapply IHb; eassumption.
      - apply Forall_app in Hb. destruct Hb as [Hb1 Hb2]. inversion_clear Hb2 as [|? ? Hb3 Hb4].
        exists (render b' ++ r). split; [now apply nis_found|].
        rewrite render_app, render_cons, !app_length. cbn. rewrite ?app_length. lia. }
    destruct X as [cl [X Y]].
    assert (W : skip_until_not_in_string ["]"%char] (render (a ++ (s, "["%char) :: b) ++ r)
                = SOk (Some cl)).
    { rewrite render_app, <- app_assoc. rewrite nis_app; [|exact Ha|now apply plain_close].
      rewrite render_cons, <- app_assoc. cbn [app]. rewrite nis_tok by exact Ho. exact X. }
    rewrite W. rewrite nis_found; [|exact Ha|now apply plain_open|exact Ho].
    destruct (Nat.ltb_spec (length cl) (length (render b ++ r))) as [_|B]; [|lia].
    apply IH; [exact Hb|exact C'|exact R|lia].
  - rewrite nis_found; [|exact Ha|now apply plain_close|exact Ho].
    assert (V : match n with 1 => SOk (Some (render b ++ r))
                | _ => arglist_loop f (Nat.pred n) (render b ++ r) end = SOk (Some r)).
    { destruct Q as [[-> ->]|[m [-> C']]]; [reflexivity|]. cbn [Nat.pred].
      apply IH; [exact Hb|exact C'|exact R|lia]. }
    rewrite render_app, <- app_assoc, nis_app; [|exact Ha|now apply plain_open].
    rewrite render_cons, <- app_assoc. cbn [app]. rewrite nis_tok by exact Ho.
    change (Ascii.eqb "[" "]") with false. cbn iota.
    destruct (skip_until_not_in_string ["["%char] (render b ++ r)) as [[o|]|] eqn:G.
    + apply nis_inv in G. destruct G as [x [y [G _]]].
      destruct (Nat.ltb_spec (length (render b ++ r)) (length o)) as [B|_]; [|exact V].
      rewrite G, app_length in B. lia.
    + exact V.
    + destruct (split_char "["%char b) as [N|[a' [s' [b' [-> N]]]]].
      * rewrite nis_app in G by assumption. easy.
      * apply Forall_app in Hb. destruct Hb as [Hb1 Hb2]. inversion_clear Hb2 as [|? ? Hb3 Hb4].
        rewrite nis_found in G by assumption. discriminate.
Qed.

Lemma arglist_sound : forall f n it q, 1 <= n -> arglist_loop f n it = SOk (Some q) ->
  exists l, it = render l ++ q /\ Forall tok_ok l /\ closes n (chars l) = true.
Proof.
  induction f as [|f IH]; intros n it q N H; [discriminate|]. cbn [arglist_loop] in H.
  change (T "]") with ["]"%char] in H. change (T "[") with ["["%char] in H.
  destruct (skip_until_not_in_string ["]"%char] it) as [[cl|]|] eqn:X; [|discriminate|discriminate].
  destruct (nis_inv _ _ _ X) as [a [s [-> [Ha Na]]]].
  destruct (split_char "["%char a) as [No|[a1 [s1 [b1 [-> No]]]]].
  - assert (V : match n with 1 => SOk (Some cl)
                | _ => arglist_loop f (Nat.pred n) cl end = SOk (Some q)).
    { assert (Y : skip_until_not_in_string ["["%char] (render (a ++ [(s, "]"%char)]) ++ cl)
                  = skip_until_not_in_string ["["%char] cl).
      { apply nis_app; [exact Ha|]. apply Forall_app. split; [exact No|].
        constructor; [discriminate|constructor]. }
      rewrite Y in H. destruct (skip_until_not_in_string ["["%char] cl) as [[o|]|] eqn:G;
        [|exact H|discriminate].
      apply nis_inv in G. destruct G as [x [y [G _]]].
      destruct (Nat.ltb_spec (length cl) (length o)) as [B|_]; [|exact H].
      rewrite G, app_length in B. lia. }
    assert (K : forall l, closes n (chars (a ++ (s, "]"%char) :: l)) =
                match n with O => false | 1 => match chars l with [] => true | _ => false end
                        | S m => closes m (chars l) end).
    { intros l. unfold chars. rewrite map_app. fold (chars a). rewrite closes_plain; [reflexivity|].
      now apply plain_of. }
    destruct n as [|[|m]]; [lia| |].
    + injection V as <-. exists (a ++ [(s, "]"%char)]). split; [reflexivity|].
      split; [exact Ha|]. now rewrite K.
    + apply IH in V; [|cbn; lia]. destruct V as [l [-> [Hl Cl]]]. cbn [Nat.pred] in Cl.
      exists (a ++ (s, "]"%char) :: l). split; [|split].
      * rewrite !render_app, !render_cons, <- !app_assoc. reflexivity.
      * change (a ++ (s, "]"%char) :: l) with (a ++ [(s, "]"%char)] ++ l).
        rewrite app_assoc. apply Forall_app. now split.
      * now rewrite K.
  - assert (Ha' : Forall tok_ok a1 /\ tok_ok (s1, "["%char) /\ Forall tok_ok (b1 ++ [(s, "]"%char)])).
    { rewrite <- app_assoc in Ha. apply Forall_app in Ha. destruct Ha as [A1 A2].
      inversion_clear A2 as [|? ? A3 A4]. now repeat split. }
    destruct Ha' as [A1 [A2 A3]].
    assert (Y : skip_until_not_in_string ["["%char]
                  (render ((a1 ++ (s1, "["%char) :: b1) ++ [(s, "]"%char)]) ++ cl)
                = SOk (Some (render (b1 ++ [(s, "]"%char)]) ++ cl))).
    { rewrite <- app_assoc. cbn [app]. apply nis_found; assumption. }
    rewrite Y in H.
    assert (B : length cl < length (render (b1 ++ [(s, "]"%char)]) ++ cl)).
    { rewrite render_app, !app_length, render_cons, app_length. cbn. lia. }
    destruct (Nat.ltb_spec (length cl) (length (render (b1 ++ [(s, "]"%char)]) ++ cl)))
      as [_|B']; [|lia].
    apply IH in H; [|lia]. destruct H as [l [E [Hl Cl]]].
    exists (a1 ++ (s1, "["%char) :: l). split; [|split].
    + rewrite <- app_assoc. cbn [app]. rewrite !render_app, !render_cons, <- !app_assoc.
      cbn [app]. rewrite <- E. now rewrite render_app, render_cons, <- !app_assoc.
    + apply Forall_app. split; [exact A1|]. now constructor.
    + unfold chars. rewrite map_app. fold (chars a1). rewrite closes_plain.
      * exact Cl.
      * apply plain_of; [|exact No]. apply Forall_app in Na. now destruct Na.
Qed.

Lemma skip_arglist_sound : forall it q, skip_arglist it = SOk (Some q) ->
  exists l, it = "["%char :: render l ++ q /\ Forall tok_ok l /\ closes 1 (chars l) = true.
Proof.
  intros it q H. unfold skip_arglist in H. destruct (skip (T "[") it) as [r|] eqn:F; [|discriminate].
  apply skip_app in F. subst. apply arglist_sound in H; [|lia].
  destruct H as [l [-> H]]. now exists l.
Qed.

Lemma skip_arglist_complete : forall l r, Forall tok_ok l -> closes 1 (chars l) = true ->
  skip_until_not_in_string ["["%char] r <> SThrow ->
  skip_arglist ("["%char :: render l ++ r) = SOk (Some r).
Proof.
  intros l r H C R. unfold skip_arglist. cbn [skip T list_ascii_of_string].
  rewrite eqb_refl'. apply arglist_complete; try assumption. rewrite app_length. lia.
Qed.

(** * get_argument_list *)

(** One pass over the tokens; [n] open brackets, [cur] the argument read so far. *)
Fixpoint cut (n : nat) (cur : text) (l : list tok) : list text :=
  match l with
  | [] => []
  | (s, c) :: r =>
      if Ascii.eqb c "]" then
        match n with
        | S (S m) => cut (S m) (cur ++ s ++ [c]) r
        | _ => [trim (cur ++ s)]
        end
      else if Ascii.eqb c "[" then cut (S n) (cur ++ s ++ [c]) r
      else if Ascii.eqb c "," && Nat.eqb n 1 then trim (cur ++ s) :: cut 1 [] r
      else cut n (cur ++ s ++ [c]) r
  end.

Definition flat (t : tok) : Prop := plain t /\ snd t <> ","%char.

Lemma cut_flat : forall a n cur l, Forall flat a -> cut n cur (a ++ l) = cut n (cur ++ render a) l.
Proof.
  induction a as [|[s c] a IH]; intros n cur l H.
  - cbn [app render flat_map]. now rewrite app_nil_r.
  - inversion_clear H as [|? ? [[H1 H2] H3] Ha]. cbn [snd] in *. cbn [app cut].
    destruct (Ascii.eqb_spec c "]") as [E|_]; [easy|].
    destruct (Ascii.eqb_spec c "[") as [E|_]; [easy|].
    destruct (Ascii.eqb_spec c ",") as [E|_]; [easy|]. cbn [andb].
    rewrite IH by exact Ha. apply f_equal2; [|reflexivity]. rewrite render_cons.
    rewrite <- !app_assoc. reflexivity.
Qed.

Lemma cut_nested : forall b m n cur l, closes (S m) (chars b) = true ->
  cut (S m + S n) cur (b ++ l) = cut (S n) (cur ++ render b) l.
Proof.
  induction b as [|[s c] b IH]; intros m n cur l C; [discriminate|].
  change (chars ((s, c) :: b)) with (c :: chars b) in C. cbn [closes] in C.
  cbn [app cut]. destruct (Ascii.eqb_spec c "]") as [E|E].
  - change (S m + S n) with (S (m + S n)). rewrite <- plus_n_Sm. destruct m as [|m].
    + destruct b as [|y b]; [|discriminate]. cbn [app]. cbn [Nat.add].
      apply f_equal2; [|reflexivity]. rewrite render_cons. cbn [render flat_map]. reflexivity.
    + cbn [Nat.add]. rewrite plus_n_Sm. change (S (m + S n)) with (S m + S n).
      rewrite IH by exact C. rewrite render_cons, <- !app_assoc. reflexivity.
  - destruct (Ascii.eqb_spec c "[") as [E'|E'].
    + change (S (S m + S n)) with (S (S m) + S n). rewrite IH by exact C.
      rewrite render_cons, <- !app_assoc. reflexivity.
    + replace (Nat.eqb (S m + S n) 1) with false
        by (symmetry; apply Nat.eqb_neq; lia).
      rewrite andb_false_r, IH by exact C. rewrite render_cons, <- !app_assoc. reflexivity.
Qed.

Lemma closes_split : forall b m n, closes (S m + S n) (chars b) = true ->
  exists b1 b2, b = b1 ++ b2 /\ closes (S m) (chars b1) = true /\ closes (S n) (chars b2) = true.
Proof.
  induction b as [|[s c] b IH]; intros m n C; [discriminate|].
  change (chars ((s, c) :: b)) with (c :: chars b) in C. cbn [closes] in C.
  destruct (Ascii.eqb_spec c "]") as [E|E].
  - cbn [Nat.add] in C. rewrite <- plus_n_Sm in C. destruct m as [|m].
    + exists [(s, c)], b. subst c. now repeat split.
    + cbn [Nat.add] in C. rewrite plus_n_Sm in C. change (S (m + S n)) with (S m + S n) in C.
      destruct (IH m n C) as [b1 [b2 [-> [C1 C2]]]]. exists ((s, c) :: b1), b2.
      split; [reflexivity|]. split; [|exact C2]. subst c. exact C1.
  - destruct (Ascii.eqb_spec c "[") as [E'|E'].
    + change (S (S m + S n)) with (S (S m) + S n) in C.
      destruct (IH (S m) n C) as [b1 [b2 [-> [C1 C2]]]]. exists ((s, c) :: b1), b2.
      split; [reflexivity|]. split; [|exact C2]. subst c. exact C1.
    + destruct (IH m n C) as [b1 [b2 [-> [C1 C2]]]]. exists ((s, c) :: b1), b2.
      split; [reflexivity|]. split; [|exact C2].
      change (chars ((s, c) :: b1)) with (c :: chars b1). cbn [closes].
      destruct (Ascii.eqb_spec c "]") as [F|_]; [easy|].
      destruct (Ascii.eqb_spec c "[") as [F|_]; [easy|]. exact C1.
Qed.

(** The first comma or bracket *)
Lemma flat_first : forall n l, closes n (chars l) = true ->
  exists a s c b, l = a ++ (s, c) :: b /\ Forall flat a /\
    (c = ","%char \/ c = "["%char \/ c = "]"%char).
Proof.
  intros n l. revert n. induction l as [|[s c] l IH]; intros n H; [discriminate|].
  destruct (Ascii.eqb_spec c ",") as [E|E]; [|destruct (Ascii.eqb_spec c "[") as [E1|E1];
    [|destruct (Ascii.eqb_spec c "]") as [E2|E2]]].
  1-3: exists [], s, c, l; split; [reflexivity|]; split; [constructor|]; now auto.
  change (chars ((s, c) :: l)) with (c :: chars l) in H. cbn [closes] in H.
  destruct (Ascii.eqb_spec c "]") as [F|_]; [easy|].
  destruct (Ascii.eqb_spec c "[") as [F|_]; [easy|].
  destruct (IH n H) as [a [s' [c' [b [-> [P Q]]]]]]. exists ((s, c) :: a), s', c', b.
  split; [reflexivity|]. split; [|exact Q]. constructor; [|exact P]. now split.
Qed.

Lemma flat_plain : forall a, Forall flat a -> Forall plain a.
Proof. intros a. apply Forall_impl. now intros t []. Qed.
Lemma flat_comma : forall a, Forall flat a -> Forall (fun t => snd t <> ","%char) a.
Proof. intros a. apply Forall_impl. now intros t []. Qed.

Lemma removelast_snoc : forall (A : Type) (l : list A) x, removelast (l ++ [x]) = l.
Proof. intros A l x. apply removelast_last. Qed.

Lemma before_nil : forall t, before t [] = t.
Proof.
  intros t. rewrite <- (app_nil_r t) at 1. apply before_app.
Qed.

Lemma argument_loop_cut : forall f l cur, Forall tok_ok l -> closes 1 (chars l) = true ->
  length (render l) < f ->
  argument_loop f (cur ++ render l) (render l) = POk (cut 1 cur l).
Proof.
  induction f as [|f IH]; intros l cur H C L; [lia|].
  destruct (flat_first 1 l C) as [a [s [c [b [-> [P Q]]]]]].
  pose proof H as H0. apply Forall_app in H0. destruct H0 as [Ha H0].
  inversion_clear H0 as [|? ? Ho Hb].
  assert (NE : cur ++ render (a ++ (s, c) :: b) <> []).
  { intros F. apply app_eq_nil in F. destruct F as [_ F]. rewrite render_app, render_cons in F.
    apply app_eq_nil in F. destruct F as [_ F]. now destruct s. }
  cbn [argument_loop].
  destruct (cur ++ render (a ++ (s, c) :: b)) as [|x0 t0] eqn:B0; [easy|]. rewrite <- B0.
  clear x0 t0 NE B0.
  change (T ",") with [","%char]. change (T "[") with ["["%char].
  assert (C' : closes 1 (c :: chars b) = true).
  { unfold chars in C. rewrite map_app in C. fold (chars a) in C.
    rewrite closes_plain in C by now apply flat_plain. exact C. }
  assert (Ac : Forall (fun t : tok => snd t <> ","%char) a) by now apply flat_comma.
  assert (Ao : Forall (fun t : tok => snd t <> "["%char) a)
    by (apply plain_open; now apply flat_plain).
  assert (Lb : length (render b) < f).
  { rewrite render_app, render_cons, !app_length in L. cbn in L. lia. }
  assert (Lx : forall t, suffix t (render b) ->
               length t < length (cur ++ render (a ++ (s, c) :: b))).
  { intros t S. apply suffix_length in S.
    rewrite app_length, render_app, render_cons, !app_length. cbn. lia. }
  rewrite cut_flat by exact P. cbn [cut]. destruct Q as [->|[->| ->]].
  - change (Ascii.eqb "," "]") with false. change (Ascii.eqb "," "[") with false.
    change (Ascii.eqb "," "," && (1 =? 1)) with true. cbn iota.
    assert (X : skip_until_not_in_string [","%char] (render (a ++ (s, ","%char) :: b))
                = SOk (Some (render b))).
    { rewrite <- (app_nil_r (render (a ++ _))). rewrite nis_found by assumption.
      now rewrite app_nil_r. }
    rewrite X. cbn [of_sres pbind].
    destruct (Nat.ltb_spec (length (render b))
                (length (cur ++ render (a ++ (s, ","%char) :: b)))) as [_|B];
      [|specialize (Lx (render b) (suffix_refl _)); lia].
    assert (R : argument_loop f (render b) (render b) = POk (cut 1 [] b)).
    { apply (IH b []); [exact Hb|exact C'|exact Lb]. }
    assert (Y : removelast (before (cur ++ render (a ++ (s, ","%char) :: b)) (render b))
                = (cur ++ render a) ++ s).
    { rewrite render_app, render_cons.
      replace (cur ++ render a ++ s ++ ","%char :: render b)
        with (((cur ++ render a) ++ s ++ [","%char]) ++ render b)
        by now rewrite <- !app_assoc.
      rewrite before_app, app_assoc. apply removelast_snoc. }
    rewrite R, Y. cbn [pbind].
    destruct (nis_render "["%char (a ++ (s, ","%char) :: b) H) as [[O _]|[a' [s' [b' [E [N' O]]]]]];
      rewrite O; cbn [of_sres pbind]; [reflexivity|].
    assert (S : suffix (render b') (render b)).
    { clear - E N' Ao. revert a' E N'. induction a as [|[s1 c1] a IHa]; intros a' E N'.
      - destruct a' as [|[s2 c2] a']; [discriminate|]. injection E as _ _ ->.
        exists (render (a' ++ [(s', "["%char)])). now rewrite <- render_app, <- app_assoc.
      - inversion_clear Ao as [|? ? A1 A2]. destruct a' as [|[s2 c2] a'].
        + injection E as _ E _. now subst c1.
        + injection E as _ _ E. inversion_clear N'. eapply IHa; eassumption. }
    apply suffix_length in S.
    destruct (Nat.ltb_spec (length (render b)) (length (render b'))) as [B|_]; [lia|reflexivity].
  - change (Ascii.eqb "[" "]") with false. change (Ascii.eqb "[" "[") with true. cbn iota.
    cbn [closes] in C'. change (Ascii.eqb "[" "]") with false in C'.
    change (Ascii.eqb "[" "[") with true in C'. cbn iota in C'.
    destruct (closes_split b 0 0 C') as [b1 [b2 [-> [C1 C2]]]].
    apply Forall_app in Hb. destruct Hb as [Hb1 Hb2].
    assert (X : skip_until_not_in_string ["["%char] (render (a ++ (s, "["%char) :: b1 ++ b2))
                = SOk (Some (render (b1 ++ b2)))).
    { rewrite <- (app_nil_r (render (a ++ _))). rewrite nis_found by assumption.
      now rewrite app_nil_r. }
    assert (Y : exists it', (exists o, skip_until_not_in_string [","%char]
                    (render (a ++ (s, "["%char) :: b1 ++ b2)) = SOk o
                    /\ it' = match o with Some q => q | None => [] end)
                  /\ length it' < length (render (b1 ++ b2)) /\ suffix it' (render (b1 ++ b2))).
    { assert (Z : skip_until_not_in_string [","%char] (render (a ++ (s, "["%char) :: b1 ++ b2))
                  = skip_until_not_in_string [","%char] (render (b1 ++ b2))).
      { rewrite render_app, nis_app by assumption. rewrite render_cons.
        rewrite nis_tok by exact Ho. reflexivity. }
      destruct (nis_render ","%char (b1 ++ b2)) as [[O _]|[a' [s' [b' [E [N' O]]]]]].
      - apply Forall_app. now split.
      - exists []. split; [exists None; rewrite Z; now split|].
        split; [|apply suffix_nil]. destruct b1 as [|[s1 c1] b1]; [discriminate|].
        cbn [app]. rewrite render_cons, app_length. cbn. lia.
      - exists (render b'). split; [exists (Some (render b')); rewrite Z; now split|].
        rewrite E, render_app, render_cons. split.
        + rewrite !app_length. cbn. lia.
        + exists (render a' ++ s' ++ [","%char]). now rewrite <- !app_assoc. }
    destruct Y as [it' [[o [Y Eo]] [Li Si]]]. rewrite Y. cbn [of_sres pbind]. rewrite <- Eo.
    destruct (Nat.ltb_spec (length it')
                (length (cur ++ render (a ++ (s, "["%char) :: b1 ++ b2)))) as [_|B];
      [|specialize (Lx it' Si); lia].
    rewrite X. cbn [of_sres pbind].
    destruct (Nat.ltb_spec (length it') (length (render (b1 ++ b2)))) as [_|B]; [|lia].
    assert (K : skip_arglist ("["%char :: render (b1 ++ b2)) = SOk (Some (render b2))).
    { rewrite render_app. apply skip_arglist_complete; [exact Hb1|exact C1|].
      destruct (nis_render "["%char b2 Hb2) as [[O _]|[a' [s' [b' [_ [_ O]]]]]]; rewrite O;
        discriminate. }
    rewrite K. cbn [of_sres pbind].
    change 2 with (1 + 1). rewrite cut_nested by exact C1.
    replace (cur ++ render (a ++ (s, "["%char) :: b1 ++ b2))
      with ((((cur ++ render a) ++ s ++ ["["%char]) ++ render b1) ++ render b2).
    2:{ rewrite render_app, render_cons, render_app, <- !app_assoc. reflexivity. }
    apply IH; [exact Hb2|exact C2|]. rewrite render_app, app_length in Lb. lia.
  - change (Ascii.eqb "]" "]") with true. cbn iota.
    cbn [closes] in C'. change (Ascii.eqb "]" "]") with true in C'. cbn iota in C'.
    destruct b as [|y b]; [|discriminate].
    assert (X : forall p, p <> "]"%char -> Forall (fun t : tok => snd t <> p) a ->
                skip_until_not_in_string [p] (render (a ++ [(s, "]"%char)])) = SOk None).
    { intros p N Np. rewrite <- (app_nil_r (render (a ++ _))). rewrite nis_app; [reflexivity|exact H|].
      apply Forall_app. split; [exact Np|]. constructor; [now apply not_eq_sym|constructor]. }
    rewrite (X ","%char) by (easy || exact Ac). cbn [of_sres pbind].
    destruct (Nat.ltb_spec (length (@nil ascii))
                (length (cur ++ render (a ++ [(s, "]"%char)])))) as [_|B];
      [|specialize (Lx [] (suffix_nil _)); lia].
    rewrite (X "["%char) by (easy || exact Ao). cbn [of_sres pbind].
    destruct f as [|f]; [lia|]. cbn [argument_loop pbind]. rewrite before_nil.
    rewrite render_app, render_cons. cbn [render flat_map].
    replace (cur ++ render a ++ s ++ ["]"%char]) with (((cur ++ render a) ++ s) ++ ["]"%char])
      by now rewrite <- !app_assoc.
    now rewrite removelast_snoc.
Qed.

Theorem argument_list_cut : forall q q', skip_arglist q = SOk (Some q') ->
  exists l, q = "["%char :: render l ++ q' /\
            get_argument_list (before q q') = POk (cut 1 [] l).
Proof.
  intros q q' H. destruct (skip_arglist_sound q q' H) as [l [-> [Hl Cl]]].
  exists l. split; [reflexivity|].
  change ("["%char :: render l ++ q') with (("["%char :: render l) ++ q').
  rewrite before_app. unfold get_argument_list.
  apply (argument_loop_cut _ l []); [exact Hl|exact Cl|cbn; lia].
Qed.
