(** Grab filters (C43) and injected sequences (C48, C60). *)
From Coq Require Import String Ascii List Arith NArith ZArith Bool Lia.
From Verif Require Import Base Key Text KeyNames ParseSeq Stage Config Serial Client ClientSpec ClientProofs.
Import ListNotations.
Local Open Scope N_scope.

Section Grab.
Variable search : text -> text -> bool.
Lemma plain_dec f t : matches_uninverted search f t false = true <-> selects search f t.
Proof.
  unfold matches_uninverted, selects. destruct (f_string f) as [|a b] eqn:E.
  - split; auto.
  - destruct (f_regex f).
    + split; [auto|]. intros [Q|Q]; [discriminate|exact Q].
    + rewrite text_eqb_eq. split; [auto|]. intros [Q|Q]; [discriminate|exact Q].
Qed.
Lemma grab_decides l name id : forall default,
  decides search l name id default (evaluate_grab_filters search l name id default).
Proof.
  unfold evaluate_grab_filters. induction l as [|f l IH] using rev_ind; intro d.
  - right. split; [intros f []|reflexivity].
  - rewrite fold_left_app. cbn [fold_left].
    destruct (matches_uninverted search (fst f) (if snd f then id else name) false) eqn:M.
    + left. exists l, f, []. split; [reflexivity|]. split; [apply plain_dec; exact M|].
      split; [intros g []|]. reflexivity.
    + assert (N : ~ selects search (fst f) (if snd f then id else name)).
      { intro Q. apply plain_dec in Q. congruence. }
      destruct (IH d) as [(p & g & q & E1 & E2 & E3 & E4)|(E1 & E2)].
      * left. exists p, g, (q ++ [f]). split; [rewrite E1, <- app_assoc; reflexivity|]. split; [exact E2|].
        split; [|exact E4]. intros h H. apply in_app_or in H. destruct H as [H|[H|[]]]; [auto|subst h; exact N].
      * right. split; [|exact E2]. intros h H. apply in_app_or in H. destruct H as [H|[H|[]]]; [auto|subst h; exact N].
Qed.
End Grab.

(** ** Releasing what is held *)
Lemma pressed_snoc k l e : pressed_after k (l ++ [e]) =
  if ek e =? k then match es e with Down => true | Up => false | _ => pressed_after k l end
  else pressed_after k l.
Proof. unfold pressed_after. rewrite fold_left_app. reflexivity. Qed.
Lemma keys_down_snoc l e : forall d, keys_down_loop (l ++ [e]) d = keys_down_loop [e] (keys_down_loop l d).
Proof. induction l as [|x l IH]; intro d; [reflexivity|]. cbn [app keys_down_loop]. apply IH. Qed.
Lemma find_key_in (k : key) (d : list key) : match find_index (N.eqb k) d with
  | Some i => In k d /\ nth_error d i = Some k
  | None => ~ In k d
  end.
Proof.
  induction d as [|x d IH]; cbn [find_index]; [intros []|].
  destruct (N.eqb_spec k x) as [E|E].
  - subst. split; [left|]; reflexivity.
  - destruct (find_index (N.eqb k) d) as [i|].
    + destruct IH as [A B]. split; [right; exact A|exact B].
    + intros [Q|Q]; [congruence|exact (IH Q)].
Qed.
Lemma remove_at_spec (k : key) (d : list key) : forall i, NoDup d -> nth_error d i = Some k ->
  NoDup (remove_at i d) /\ forall x, In x (remove_at i d) <-> In x d /\ x <> k.
Proof.
  induction d as [|y d IH]; intros [|i] ND H; try discriminate; inversion ND as [|? ? N1 N2]; subst.
  - injection H as ->. cbn [remove_at]. split; [exact N2|]. intro x. cbn [In]. split.
    + intro Q. split; [right; exact Q|]. intro E. subst. contradiction.
    + intros [[Q|Q] NE]; [congruence|exact Q].
  - cbn [nth_error] in H. destruct (IH i N2 H) as [A B]. cbn [remove_at]. split.
    + constructor; [|exact A]. intro Q. apply B in Q. apply N1. apply Q.
    + intro x. cbn [In]. rewrite B. split.
      * intros [Q|[Q NE]]; [|tauto]. subst x. split; [auto|]. intro E. subst y. apply N1.
        eapply nth_error_In. exact H.
      * intros [[Q|Q] NE]; auto.
Qed.
Lemma keys_down_spec l : NoDup (keys_down_loop l []) /\
  forall k, In k (keys_down_loop l []) <-> pressed_after k l = true.
Proof.
  induction l as [|e l IH] using rev_ind; [split; [constructor|]; intro k; split; [intros []|discriminate]|].
  destruct IH as [ND IN]. rewrite keys_down_snoc. set (d := keys_down_loop l []) in *.
  cbn [keys_down_loop]. pose proof (find_key_in (ek e) d) as FK.
  assert (SAME : NoDup d /\ forall k, In k d <-> pressed_after k l = true) by auto.
  assert (OTHER : forall k, ek e <> k -> pressed_after k (l ++ [e]) = pressed_after k l).
  { intros k NE. rewrite pressed_snoc. apply N.eqb_neq in NE. rewrite NE. reflexivity. }
  destruct (es e) eqn:S; try (split; [exact ND|]; intro k; rewrite pressed_snoc, S, IN;
     destruct (ek e =? k); reflexivity).
  all: destruct (find_index (N.eqb (ek e)) d) as [i|].
  all: try (destruct FK as [FI FN]).
  - destruct (remove_at_spec _ _ _ ND FN) as [A B]. split; [exact A|]. intro k. rewrite B, IN.
    destruct (N.eq_dec (ek e) k) as [E|E].
    + subst k. rewrite pressed_snoc, N.eqb_refl, S. split; [intros [_ Q]; congruence|discriminate].
    + rewrite OTHER by exact E. split; [tauto|]. intro Q. split; [exact Q|congruence].
  - split; [exact ND|]. intro k. rewrite IN. destruct (N.eq_dec (ek e) k) as [E|E].
    + subst k. rewrite pressed_snoc, N.eqb_refl, S. rewrite <- IN. split; [contradiction|discriminate].
    + rewrite OTHER by exact E. reflexivity.
  - split; [exact ND|]. intro k. rewrite IN. destruct (N.eq_dec (ek e) k) as [E|E].
    + subst k. rewrite pressed_snoc, N.eqb_refl, S. rewrite <- IN. tauto.
    + rewrite OTHER by exact E. reflexivity.
  - split.
    + apply NoDup_rev in ND. rewrite <- (rev_involutive (d ++ [ek e])). apply NoDup_rev.
      rewrite rev_app_distr. cbn [rev app]. constructor; [|exact ND]. rewrite <- in_rev. exact FK.
    + intro k. rewrite in_app_iff, IN. destruct (N.eq_dec (ek e) k) as [E|E].
      * subst k. rewrite pressed_snoc, N.eqb_refl, S. cbn [In]. tauto.
      * rewrite OTHER by exact E. cbn [In]. tauto.
Qed.
Lemma pressed_ups k d : forall l, pressed_after k (l ++ map (fun k => ev0 k Up) d) =
  if existsb (N.eqb k) d then false else pressed_after k l.
Proof.
  induction d as [|x d IH]; intro l; [rewrite app_nil_r; reflexivity|].
  cbn [map]. change (l ++ ev0 x Up :: map (fun k => ev0 k Up) d) with (l ++ [ev0 x Up] ++ map (fun k => ev0 k Up) d).
  rewrite app_assoc, IH, pressed_snoc. cbn [ev0 ek es existsb].
  rewrite (N.eqb_sym x k). destruct (k =? x); cbn [orb]; [destruct (existsb _ _); reflexivity|reflexivity].
Qed.
Lemma ensure_releases l k : pressed_after k (ensure_all_keys_up l) = false.
Proof.
  unfold ensure_all_keys_up. rewrite pressed_ups. destruct (keys_down_spec l) as [_ IN].
  destruct (existsb (N.eqb k) (keys_down_loop l [])) eqn:M; [reflexivity|].
  destruct (pressed_after k l) eqn:P; [|reflexivity]. apply IN in P.
  assert (Q : existsb (N.eqb k) (keys_down_loop l []) = true).
  { apply existsb_exists. exists k. split; [exact P|apply N.eqb_refl]. }
  congruence.
Qed.
Lemma ensure_appends l : exists r, ensure_all_keys_up l = l ++ r /\ NoDup (map ek r) /\
  Forall (fun e => e = ev0 (ek e) Up /\ pressed_after (ek e) l = true) r.
Proof.
  destruct (keys_down_spec l) as [ND IN]. unfold ensure_all_keys_up.
  exists (map (fun k => ev0 k Up) (keys_down_loop l [])). split; [reflexivity|]. split.
  - rewrite map_map. cbn [ev0 ek]. rewrite map_id. exact ND.
  - apply Forall_forall. intros e H. apply in_map_iff in H. destruct H as (k & <- & H).
    split; [reflexivity|]. apply IN. exact H.
Qed.
Lemma replaced l e : In e (ensure_all_keys_up (replace_logical_keys l)) ->
  ek e <> k_Shift /\ ek e <> k_Control /\ ek e <> k_Meta.
Proof.
  assert (R : forall k, replace_logical_key k <> k_Shift /\ replace_logical_key k <> k_Control /\
                        replace_logical_key k <> k_Meta).
  { intro k. unfold replace_logical_key.
    destruct (N.eqb_spec k k_Shift) as [E|E].
    - vm_compute. repeat split; discriminate.
    - destruct (N.eqb_spec k k_Control) as [E'|E'].
      + vm_compute. repeat split; discriminate.
      + destruct (N.eqb_spec k k_Meta) as [E''|E'']; [vm_compute; repeat split; discriminate|auto]. }
  assert (P : forall x, In x (replace_logical_keys l) ->
     ek x <> k_Shift /\ ek x <> k_Control /\ ek x <> k_Meta).
  { intros x H. unfold replace_logical_keys in H. apply in_map_iff in H. destruct H as (y & <- & H). apply R. }
  assert (PR : forall k s, pressed_after k s = true -> exists x, In x s /\ ek x = k).
  { intros k s. induction s as [|x s IH] using rev_ind; [discriminate|]. rewrite pressed_snoc.
    destruct (N.eqb_spec (ek x) k) as [E|E].
    - intros _. exists x. split; [apply in_or_app; right; left; reflexivity|exact E].
    - intro H. destruct (IH H) as (y & A & B). exists y. split; [apply in_or_app; left; exact A|exact B]. }
  destruct (ensure_appends (replace_logical_keys l)) as (r & E & _ & F). rewrite E. intro H.
  apply in_app_or in H. destruct H as [H|H]; [apply P; exact H|].
  rewrite Forall_forall in F. destruct (F _ H) as [_ Q]. destruct (PR _ _ Q) as (x & A & B).
  rewrite <- B. apply P. exact A.
Qed.
