(** Proofs about the string typer on macOS. *)
From Coq Require Import List NArith Bool.
From Verif Require Import Base Key Typer MacTyper MacTyperSpec.
Import ListNotations.
Local Open Scope N_scope.

Section Carbon.
Variable lay : clayout.
Variable keys : list key.
Notation all := (mac_strokes keys).

(** An entry is made of strokes which give its character first. *)
Definition entry_fits (c : N) (e : entry) : Prop :=
  (exists x r, e = [x] /\ In x all /\ lay None x = CChars c r) \/
  (exists x n y r, e = [x; y] /\ In x all /\ In y all /\ lay None x = CDead n /\ lay (Some n) y = CChars c r).
Definition fits (d : dictionary) : Prop := forall c e, d c = Some e -> entry_fits c e.
Definition grows (d d' : dictionary) : Prop :=
  forall c, (d c <> None -> d' c <> None) /\ (forall x, d c = Some [x] -> d' c = Some [x]).

Lemma grows_refl : forall d, grows d d.
Proof. intros d c. auto. Qed.
Lemma grows_trans : forall a b c, grows a b -> grows b c -> grows a c.
Proof. intros a b c H1 H2 x. destruct (H1 x), (H2 x). split; auto. Qed.
Lemma grows_put : forall d c e, (forall x, d c = Some [x] -> e = [x]) -> grows d (put c e d).
Proof.
  intros d c e H x. unfold put. destruct (N.eqb_spec x c) as [->|Hx]; [|auto].
  split; [discriminate|]. intros y Hy. now rewrite (H _ Hy).
Qed.
Lemma put_fits : forall d c e, fits d -> entry_fits c e -> fits (put c e d).
Proof.
  intros d c e H He x e' Hx. unfold put in Hx. destruct (N.eqb_spec x c) as [->|Hne]; [congruence|]. now apply H.
Qed.

Lemma after_dead : forall x n l d,
  In x all -> lay None x = CDead n -> fits d -> (forall y, In y l -> In y all) ->
  let d' := fold_left (fun d y =>
    match lay (Some n) y with
    | CChars c _ => match d c with None => put c [x; y] d | Some _ => d end
    | _ => d
    end) l d in
  fits d' /\ grows d d' /\ (forall y c r, In y l -> lay (Some n) y = CChars c r -> d' c <> None).
Proof.
  intros x n. induction l as [|y l IH]; intros d Hx Hn Hf Hl; cbn [fold_left]; cbv zeta in *.
  - split; [assumption|]. split; [apply grows_refl|]. intros y c r [].
  - set (d1 := match lay (Some n) y with
      | CChars c _ => match d c with None => put c [x; y] d | Some _ => d end | _ => d end).
    assert (fits d1 /\ grows d d1 /\ (forall c r, lay (Some n) y = CChars c r -> d1 c <> None)) as (F1 & G1 & C1).
    { subst d1. destruct (lay (Some n) y) as [|m|c r] eqn:E;
        try (split; [assumption|split; [apply grows_refl|discriminate]]).
      destruct (d c) as [e|] eqn:Ed.
      - split; [assumption|]. split; [apply grows_refl|]. intros c' r' H. injection H as <- <-. congruence.
      - split; [|split].
        + apply put_fits; [assumption|]. right. exists x, n, y, r. repeat split; try assumption. apply Hl. now left.
        + apply grows_put. congruence.
        + intros c' r' H. injection H as <- <-. unfold put. rewrite N.eqb_refl. discriminate. }
    destruct (IH d1 Hx Hn F1) as (F2 & G2 & C2); [intros z Hz; apply Hl; now right|].
    split; [exact F2|]. split; [eapply grows_trans; eassumption|].
    intros z c r [<-|Hz] Hc; [|eapply C2; eassumption]. apply (G2 c). eapply C1. eassumption.
Qed.

Lemma add_stroke_spec : forall d x,
  fits d -> In x all ->
  fits (add_stroke lay keys d x) /\ grows d (add_stroke lay keys d x) /\
  (forall c r, lay None x = CChars c r -> exists y, add_stroke lay keys d x c = Some [y]) /\
  (forall n y c r, lay None x = CDead n -> In y all -> lay (Some n) y = CChars c r -> add_stroke lay keys d x c <> None).
Proof.
  intros d x Hf Hx. unfold add_stroke. destruct (lay None x) as [|n|c r] eqn:E.
  - repeat split; try assumption; try discriminate; auto.
  - destruct (after_dead x n all d Hx E Hf (fun y H => H)) as (F & G & C).
    split; [exact F|]. split; [exact G|]. split; [discriminate|].
    intros n' y c r Hn Hy Hc. injection Hn as <-. eapply C; eassumption.
  - assert (entry_fits c [x]) as He by (left; exists x, r; auto).
    destruct (d c) as [[|a [|b e]]|] eqn:Ed.
    + apply Hf in Ed. destruct Ed as [(? & ? & F & _)|(? & ? & ? & ? & F & _)]; discriminate F.
    + repeat split; try assumption; try discriminate; auto.
      intros c' r' H. injection H as <- <-. eauto.
    + split; [now apply put_fits|]. split; [apply grows_put; rewrite Ed; discriminate|]. split; [|discriminate].
      intros c' r' H. injection H as <- <-. exists x. unfold put. now rewrite N.eqb_refl.
    + split; [now apply put_fits|]. split; [apply grows_put; rewrite Ed; discriminate|]. split; [|discriminate].
      intros c' r' H. injection H as <- <-. exists x. unfold put. now rewrite N.eqb_refl.
Qed.
Lemma add_strokes_spec : forall l d,
  fits d -> (forall x, In x l -> In x all) ->
  let d' := fold_left (add_stroke lay keys) l d in
  fits d' /\ grows d d' /\
  (forall x c r, In x l -> lay None x = CChars c r -> exists y, d' c = Some [y]) /\
  (forall x n y c r, In x l -> lay None x = CDead n -> In y all -> lay (Some n) y = CChars c r -> d' c <> None).
Proof.
  induction l as [|x l IH]; intros d Hf Hl; cbn [fold_left]; cbv zeta in *.
  - split; [assumption|]. split; [apply grows_refl|]. split; intros; contradiction.
  - destruct (add_stroke_spec d x Hf) as (F1 & G1 & C1 & D1); [apply Hl; now left|].
    destruct (IH (add_stroke lay keys d x) F1) as (F2 & G2 & C2 & D2); [intros z Hz; apply Hl; now right|].
    split; [exact F2|]. split; [eapply grows_trans; eassumption|]. split.
    + intros z c r [<-|Hz] Hc; [|eapply C2; eassumption].
      destruct (C1 c r Hc) as (y & Hy). exists y. now apply (G2 c).
    + intros z n y c r [<-|Hz] Hn Hy Hc; [|eapply D2; eassumption]. apply (G2 c). eapply D1; eassumption.
Qed.
Lemma dictionary_spec :
  fits (carbon_dictionary lay keys) /\
  (forall c, has_key_of lay keys c -> exists y, carbon_dictionary lay keys c = Some [y]) /\
  (forall c, has_dead_keys_of lay keys c -> carbon_dictionary lay keys c <> None).
Proof.
  destruct (add_strokes_spec all (fun _ => None)) as (F & _ & C & D).
  - intros c e H. discriminate H.
  - auto.
  - split; [exact F|]. split.
    + intros c (x & r & Hx & Hc). eapply C; eassumption.
    + intros c (x & n & y & r & Hx & Hy & Hn & Hc). exact (D x n y c r Hx Hn Hy Hc).
Qed.

Lemma entry_received : forall c e,
  one_each lay keys -> entry_fits c e -> forall r, receives lay None (e ++ r) = let '(t, st) := receives lay None r in (c :: t, st).
Proof.
  intros c e Ho [(x & s & -> & Hx & Hc)|(x & n & y & s & -> & Hx & Hy & Hn & Hc)] r; cbn [app receives].
  - rewrite Hc. rewrite (Ho _ _ _ _ Hx Hc). reflexivity.
  - rewrite Hn, Hc. rewrite (Ho _ _ _ _ Hy Hc). reflexivity.
Qed.
Lemma typed_received : forall l,
  one_each lay keys -> (forall c, In c l -> carbon_dictionary lay keys c <> None) ->
  receives lay None (flat_map (mac_type_char (carbon_dictionary lay keys)) l) = (l, None).
Proof.
  induction l as [|c l IH]; intros Ho Hl; [reflexivity|]. cbn [flat_map]. unfold mac_type_char at 1.
  destruct (carbon_dictionary lay keys c) as [e|] eqn:E; [|exfalso; apply (Hl c); [now left|assumption]].
  rewrite (entry_received c e Ho); [|now apply dictionary_spec].
  rewrite IH; [reflexivity|assumption|]. intros x Hx. apply Hl. now right.
Qed.
End Carbon.
