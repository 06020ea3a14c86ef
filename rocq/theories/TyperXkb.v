(** The dictionary made from a keymap of xkb is right for it (C58). *)
From Coq Require Import String Ascii List Arith NArith Bool Lia.
From Verif Require Import Base Key Text ParseSeq Typer TyperSpec.
Import ListNotations.
Local Open Scope N_scope.

Definition typing_keyb (k : key) : bool :=
  (0 <? k) && (k <? 0x200) && negb (is_mouse_button k) && negb (is_mouse_wheel k) && negb (is_modifier k).
Lemma typing_keyb_ok k : typing_keyb k = true -> typing_key k.
Proof.
  unfold typing_keyb, typing_key. rewrite !andb_true_iff, !negb_true_iff, !N.ltb_lt. tauto.
Qed.

Lemma names_typing : forallb (fun x => typing_keyb (snd x)) xkb_names = true.
Proof. reflexivity. Qed.
Lemma name_in n : xkb_keyname_to_key n <> 0 -> In (n, xkb_keyname_to_key n) xkb_names.
Proof.
  unfold xkb_keyname_to_key. destruct (find _ _) as [[m k]|] eqn:F; [|congruence]. intros _.
  apply find_some in F. destruct F as [I Q]. cbn in Q. apply String.eqb_eq in Q. now subst.
Qed.
Lemma name_typing n : xkb_keyname_to_key n <> 0 -> typing_key (xkb_keyname_to_key n).
Proof.
  intros H. apply name_in in H. apply typing_keyb_ok. pose proof names_typing as F. rewrite forallb_forall in F. exact (F _ H).
Qed.
Lemma names_distinct : forallb (fun x => forallb (fun y => negb (snd x =? snd y) || String.eqb (fst x) (fst y)) xkb_names) xkb_names = true.
Proof. vm_compute. reflexivity. Qed.
Lemma name_inj a b : xkb_keyname_to_key a <> 0 -> xkb_keyname_to_key a = xkb_keyname_to_key b -> a = b.
Proof.
  intros H Q. pose proof (name_in a H) as A. assert (H' : xkb_keyname_to_key b <> 0) by congruence. pose proof (name_in b H') as B.
  pose proof names_distinct as F. rewrite forallb_forall in F. specialize (F _ A). cbn beta in F. rewrite forallb_forall in F.
  specialize (F _ B). cbn [fst snd] in F. rewrite Q, N.eqb_refl in F. cbn in F. now apply String.eqb_eq in F.
Qed.

(** The masks of the three modifiers *)
Lemma mask_cases mask : N.land mask 137 = mask -> xkb_state (get_xkb_modifiers mask) = mask /\ get_xkb_modifiers mask < 8.
Proof.
  intros H. assert (B : forall i, N.testbit mask i = N.testbit mask i && N.testbit 137 i) by (intros i; rewrite <- N.land_spec; now rewrite H).
  assert (V : mask = (if N.testbit mask 0 then 1 else 0) + (if N.testbit mask 3 then 8 else 0) + (if N.testbit mask 7 then 128 else 0)).
  { apply N.bits_inj. intros i. rewrite B.
    destruct (N.testbit mask 0) eqn:B0, (N.testbit mask 3) eqn:B3, (N.testbit mask 7) eqn:B7; cbn [N.add];
    (destruct (N.ltb_spec i 8) as [L|L];
     [assert (C : i = 0 \/ i = 1 \/ i = 2 \/ i = 3 \/ i = 4 \/ i = 5 \/ i = 6 \/ i = 7) by lia;
      repeat destruct C as [C|C]; subst i; rewrite ?B0, ?B3, ?B7, ?andb_false_r; reflexivity
     |assert (Z : forall n, n < 256 -> N.testbit n i = false);
      [intros n Hn; destruct (N.eq_dec n 0) as [->|N0]; [apply N.bits_0|]; apply N.bits_above_log2;
       apply N.lt_le_trans with 8; [apply N.log2_lt_pow2; [lia|exact Hn]|exact L]
      |rewrite (Z 137) by reflexivity; rewrite andb_false_r; symmetry; apply Z; reflexivity]]). }
  unfold get_xkb_modifiers. rewrite V at 4.
  destruct (N.testbit mask 0), (N.testbit mask 3), (N.testbit mask 7); vm_compute; auto.
Qed.

Section Xkb.
Variable to_utf32 : N -> N.

(** Where an entry comes from *)
Definition from (keys : keymap) (c : N) (e : entry) : Prop :=
  exists x y l sym r mask r', In x keys /\ In y (xk_layouts x) /\ In l (xl_levels y) /\
    xkb_keyname_to_key (xk_name x) <> 0 /\ lv_symbols l = sym :: r /\ lv_masks l = mask :: r' /\
    c = to_utf32 sym /\ c <> 0 /\ e = [(xkb_keyname_to_key (xk_name x), get_xkb_modifiers mask)].
Definition all_from (keys : keymap) (s : xstate) : Prop := Forall (fun p => from keys (fst p) (snd p)) (xs_dict s).

Lemma add_level_from keys x y l s : In x keys -> In y (xk_layouts x) -> In l (xl_levels y) ->
  xkb_keyname_to_key (xk_name x) <> 0 -> all_from keys s ->
  all_from keys (add_level to_utf32 (xkb_keyname_to_key (xk_name x)) l s).
Proof.
  intros Hx Hy Hl Hk F. unfold add_level. destruct (lv_symbols l) as [|sym r] eqn:Es; [exact F|].
  destruct (lv_masks l) as [|mask r'] eqn:Em; [exact F|].
  destruct (N.eqb_spec (to_utf32 sym) 0) as [Z|Z]; cbn [negb].
  - destruct (alook sym (xs_dead s)); exact F.
  - destruct (alook _ _); [exact F|]. unfold all_from. cbn [xs_dict]. apply Forall_app. split; [exact F|].
    constructor; [|constructor]. exists x, y, l, sym, r, mask, r'. cbn [fst snd]. repeat (split; [assumption || reflexivity|]). reflexivity.
Qed.
Lemma fold_inv {A B} (P : B -> Prop) (f : B -> A -> B) (l : list A) : (forall b a, In a l -> P b -> P (f b a)) ->
  forall b, P b -> P (fold_left f l b).
Proof.
  induction l as [|a l IH]; intros H b Hb; [exact Hb|]. cbn [fold_left]. apply IH; [intros; apply H; [now right|assumption]|].
  apply H; [now left|exact Hb].
Qed.
Lemma add_key_from keys x s : In x keys -> all_from keys s -> all_from keys (add_key to_utf32 x s).
Proof.
  intros Hx F. unfold add_key. destruct (xkb_keyname_to_key (xk_name x)) eqn:K; [exact F|]. rewrite <- K.
  apply fold_inv; [|exact F]. intros s1 y Hy F1. apply fold_inv; [|exact F1]. intros s2 l Hl F2.
  apply (add_level_from keys x y l); auto. rewrite K. discriminate.
Qed.

Lemma removelast_in {A} (l : list A) x : In x (removelast l) -> In x l.
Proof.
  induction l as [|a l IH]; [auto|]. cbn [removelast]. destruct l; [intros []|]. intros [->|H]; [now left|right; now apply IH].
Qed.

Lemma entries_from compose keys c e : xkb_dictionary to_utf32 compose keys [] c = Some e -> from keys c e.
Proof.
  unfold xkb_dictionary. cbn [fold_left].
  assert (F : all_from keys (fold_left (fun s k => add_key to_utf32 k s) (removelast keys) (start compose))).
  { apply fold_inv; [|destruct compose; constructor]. intros s x Hx. apply add_key_from. now apply removelast_in. }
  unfold alook. destruct (find _ _) as [[c' e']|] eqn:Q; [|discriminate]. intros [= <-].
  apply find_some in Q. destruct Q as [I Q]. cbn [fst] in Q. apply N.eqb_eq in Q. subst c'.
  unfold all_from in F. rewrite Forall_forall in F. exact (F _ I).
Qed.

Lemma find_key keys x : NoDup (map xk_name keys) -> In x keys -> xkb_keyname_to_key (xk_name x) <> 0 ->
  List.find (fun z => xkb_keyname_to_key (xk_name z) =? xkb_keyname_to_key (xk_name x)) keys = Some x.
Proof.
  induction keys as [|z keys IH]; intros D I K; [destruct I|]. cbn [map] in D. apply NoDup_cons_iff in D. destruct D as [Nz D].
  cbn [List.find]. destruct I as [->|I]; [now rewrite N.eqb_refl|].
  destruct (N.eqb_spec (xkb_keyname_to_key (xk_name z)) (xkb_keyname_to_key (xk_name x))) as [Q|Q]; [|now apply IH].
  exfalso. apply Nz. rewrite (name_inj (xk_name z) (xk_name x)); [now apply in_map|congruence|exact Q].
Qed.

Theorem xkb_right compose keys : plain_keymap keys ->
  right_for (xkb_layout to_utf32 keys) (xkb_dictionary to_utf32 compose keys []).
Proof.
  intros [D F] c e H. destruct (entries_from _ _ _ _ H) as (x & y & l & sym & r & mask & r' & Hx & Hy & Hl & K & Es & Em & Ec & C0 & Ee).
  rewrite Forall_forall in F. destruct (F x Hx) as [L1 Fy]. rewrite Forall_forall in Fy. pose proof (Fy y Hy) as Fl.
  rewrite Forall_forall in Fl. destruct (Fl l Hl mask r' Em) as (M & My & Own). destruct (mask_cases mask M) as [St Lt].
  exists (xkb_keyname_to_key (xk_name x)), (get_xkb_modifiers mask). split; [exact Ee|]. split; [exact Lt|].
  split; [now apply name_typing|]. unfold xkb_layout. rewrite (find_key keys x D Hx K).
  destruct (xk_layouts x) as [|y' [|? ?]]; [destruct Hy| |cbn in L1; lia]. destruct Hy as [->|[]]. rewrite St.
  assert (Z : N.land mask (N.ldiff 12 (xl_mods y)) = 0).
  { apply N.bits_inj. intros i. rewrite N.land_spec, N.ldiff_spec, N.bits_0. rewrite <- My, N.land_spec.
    destruct (N.testbit mask i), (N.testbit (xl_mods y) i), (N.testbit 12 i); reflexivity. }
  rewrite Z. cbn [N.eqb negb]. unfold level_for. rewrite My.
  destruct (List.find _ (xl_levels y)) as [l'|] eqn:Q.
  - apply find_some in Q. destruct Q as [I' Q]. apply existsb_exists in Q. destruct Q as (m & Im & Qm). apply N.eqb_eq in Qm. subst m.
    rewrite (Own l' I' Im). destruct l as [ss ms]. cbn in Es. subst ss.
    apply N.eqb_neq in C0. rewrite <- Ec, C0. reflexivity.
  - exfalso. pose proof (find_none _ _ Q l Hl) as X. cbn beta in X. rewrite Em in X. cbn [existsb] in X. rewrite N.eqb_refl in X. discriminate.
Qed.
End Xkb.
