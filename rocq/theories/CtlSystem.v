(** keymapperctl and the client together. *)
From Coq Require Import String Ascii List Arith NArith ZArith Bool Lia.
From Verif Require Import Base Key Text KeyNames ParseSeq Stage Config Serial SerialSpec SerialProofs SerialStream
  Client ClientSpec ClientProofs ClientContexts ClientControl Ctl CtlSpec CtlLink.
Import ListNotations.
Local Open Scope nat_scope.

(** * Lists and logs *)
Lemma client_app a b : client_of (a ++ b) = client_of a ++ client_of b.
Proof. apply flat_map_app. Qed.
Lemma ctl_app a b : ctl_of (a ++ b) = ctl_of a ++ ctl_of b.
Proof. apply flat_map_app. Qed.
Lemma client_ac w : client_of (map AC w) = w.
Proof.
  induction w as [|e w IH]; [reflexivity|]. change (client_of (map AC (e :: w))) with (e :: client_of (map AC w)).
  rewrite IH. reflexivity.
Qed.
Lemma ctl_ac w : ctl_of (map AC w) = [].
Proof. induction w as [|e w IH]; [reflexivity|]. exact IH. Qed.
Lemma client_only m : ctl_of m = [] -> m = map AC (client_of m).
Proof.
  induction m as [|a m IH]; intro H; [reflexivity|]. destruct a as [e|e]; [|discriminate H].
  change (client_of (AC e :: m)) with (e :: client_of m). cbn [map]. f_equal. apply IH. exact H.
Qed.
(** The next thing keymapperctl does. *)
Lemma next_ctl m e h : ctl_of m = e :: h -> exists w m', m = map AC w ++ AG e :: m' /\ ctl_of m' = h.
Proof.
  induction m as [|a m IH]; intro H; [discriminate H|]. destruct a as [x|x].
  - destruct (IH H) as (w & m' & E & H'). exists (x :: w), m'. split; [cbn; rewrite E; reflexivity|exact H'].
  - cbn in H. injection H as -> H. exists [], m. auto.
Qed.
Lemma prefix_refl {A} (a : list A) : prefix a a.
Proof. exists []. rewrite app_nil_r. reflexivity. Qed.
Lemma prefix_app {A} (a b : list A) : prefix a (a ++ b).
Proof. exists b. reflexivity. Qed.
Lemma prefix_trans {A} (a b c : list A) : prefix a b -> prefix b c -> prefix a c.
Proof. intros [x ->] [y ->]. exists (x ++ y). rewrite app_assoc. reflexivity. Qed.
Lemma prefix_length {A} (a b : list A) : prefix a b -> length a <= length b.
Proof. intros [x ->]. rewrite app_length. lia. Qed.
Lemma prefix_eq {A} (a b : list A) : prefix a b -> length b <= length a -> a = b.
Proof.
  intros [x ->] H. rewrite app_length in H. destruct x; [rewrite app_nil_r; reflexivity|cbn in H; lia].
Qed.
Lemma prefix_both {A} (a b c : list A) : prefix a c -> prefix b c -> length a <= length b -> prefix a b.
Proof.
  revert b c. induction a as [|x a IH]; intros b c [u Hu] [v Hv] H; [exists b; reflexivity|].
  destruct b as [|y b]; [cbn in H; lia|]. subst c. injection Hv as -> Hv.
  destruct (IH b (a ++ u)) as [z ->]; [exists u; reflexivity|exists v; exact Hv|cbn in H; lia|]. exists z. reflexivity.
Qed.
Lemma prefix_client p q : prefix p q -> prefix (client_of p) (client_of q).
Proof. intros [x ->]. rewrite client_app. apply prefix_app. Qed.
Lemma prefix_ctl p q : prefix p q -> prefix (ctl_of p) (ctl_of q).
Proof. intros [x ->]. rewrite ctl_app. apply prefix_app. Qed.

(** * The connection at the client's end *)
Definition closes (s : N) (e : ceffect) : bool :=
  match e with FClosed s' => N.eqb s' s | FLost => true | _ => false end.
Definition stays (s : N) (v : trace) : Prop := Forall (fun e => closes s e = false) v.

Lemma until_stays s t : stays s (until_closed s t).
Proof.
  induction t as [|e t IH]; [constructor|].
  destruct e; cbn [until_closed]; try (constructor; [reflexivity|exact IH]); [|constructor].
  destruct (N.eqb socket s) eqn:E; [constructor|]. constructor; [exact E|exact IH].
Qed.
Lemma until_prefix s t : prefix (until_closed s t) t.
Proof.
  induction t as [|e t IH]; [apply prefix_refl|]. destruct IH as [x E].
  assert (R : forall e, prefix (e :: until_closed s t) (e :: t)) by (intro e0; exists x; cbn; rewrite <- E; reflexivity).
  destruct e; cbn [until_closed]; try apply R; [|eexists; reflexivity].
  destruct (N.eqb socket s); [eexists; reflexivity|apply R].
Qed.
Lemma until_id s t : stays s t -> until_closed s t = t.
Proof.
  induction 1 as [|e t H F IH]; [reflexivity|].
  destruct e; cbn [until_closed]; cbn [closes] in H; try discriminate H; rewrite ?H, ?IH; reflexivity.
Qed.
Lemma until_app s a b : stays s a -> until_closed s (a ++ b) = a ++ until_closed s b.
Proof.
  induction 1 as [|e a H F IH]; [reflexivity|].
  destruct e; cbn [until_closed app]; cbn [closes] in H; try discriminate H; rewrite ?H, ?IH; reflexivity.
Qed.
Lemma until_closed_app s a b : ~ stays s a -> until_closed s (a ++ b) = until_closed s a.
Proof.
  intro N. induction a as [|e a IH]; [exfalso; apply N; constructor|].
  destruct (closes s e) eqn:E.
  - destruct e; try discriminate E; cbn [until_closed app]; [|reflexivity]. cbn [closes] in E. rewrite E. reflexivity.
  - assert (IH' : until_closed s (a ++ b) = until_closed s a).
    { apply IH. intro Q. apply N. constructor; assumption. }
    destruct e; cbn [until_closed app]; rewrite ?IH'; reflexivity.
Qed.
Lemma stays_dec s a : {stays s a} + {~ stays s a}.
Proof.
  apply Forall_dec. intro e. destruct (closes s e); [right; discriminate|left; reflexivity].
Qed.

Lemma asked_app s a b : asked s (a ++ b) = asked s a ++ asked s b.
Proof. apply flat_map_app. Qed.
Lemma answers_app s a b : answers s (a ++ b) = answers s a ++ answers s b.
Proof. apply flat_map_app. Qed.
Lemma answers_until s a b : prefix (answers s (until_closed s a)) (answers s (until_closed s (a ++ b))).
Proof.
  destruct (stays_dec s a) as [H|H].
  - rewrite (until_app s a b H), (until_id s a H), answers_app. apply prefix_app.
  - rewrite (until_closed_app s a b H). apply prefix_refl.
Qed.

(** * The link *)
Lemma link_app s a b : link_of s (a ++ b) = fold_left (link_step s) b (link_of s a).
Proof. unfold link_of. apply fold_left_app. Qed.
Lemma ok_step s x e : lk_ok (link_step s x e) = true -> lk_ok x = true.
Proof.
  destruct e as [| | |[]|s'|s' m|[]|s' m| | |s'|]; cbn [link_step];
    repeat match goal with |- context [if ?b then _ else _] => destruct b end;
    cbn [lk_ok]; rewrite ?andb_true_iff; tauto.
Qed.
Lemma ok_mono s a b : lk_ok (link_of s (a ++ b)) = true -> lk_ok (link_of s a) = true.
Proof.
  rewrite link_app. revert a. induction b as [|e b IH]; intros a H; [exact H|].
  cbn [fold_left] in H. change (link_step s (link_of s a) e) with (fold_left (link_step s) [e] (link_of s a)) in H.
  rewrite <- link_app in H. apply IH in H. rewrite link_snoc in H. eapply ok_step. exact H.
Qed.

Definition waiting (x : link) : nat :=
  (match lk_owed x with Some _ => 1 | None => 0 end) + (if N.eqb (lk_armed x) 0 then 0 else 1) +
  (if lk_info x then 1 else 0).
(** There are never more answers due than requests, and answers carry known keys. *)
Definition fair (x : link) : Prop :=
  lk_answered x + waiting x <= lk_asked x /\
  (forall k, lk_owed x = Some (OState k) -> k = 0%N \/ is_virtual_key k = true).
Lemma virtual_nonzero k : is_virtual_key k = true -> k <> 0%N.
Proof. intros H ->. discriminate H. Qed.
Lemma fair_step s x e : lk_ok (link_step s x e) = true -> fair x -> fair (link_step s x e).
Proof.
  intros OK [A B].
  destruct e as [| | |[i|k st|k nm id]|s'|s' m|[]|s' m| | |s'|]; cbn [link_step] in *; try (split; assumption).
  - (* report *)
    destruct (lk_open x && (lk_armed x =? k)%N && is_virtual_key k) eqn:E; [|split; assumption].
    cbn [lk_ok] in OK. apply andb_true_iff in OK. destruct OK as [_ OK].
    apply andb_true_iff in E. destruct E as [E VK]. apply andb_true_iff in E. destruct E as [_ E]. apply N.eqb_eq in E.
    split; cbn [lk_answered lk_asked lk_owed].
    + revert A. unfold waiting. cbn [lk_owed lk_armed lk_info]. assert (W : lk_owed x = None) by (destruct (lk_owed x); [discriminate OK|reflexivity]). rewrite W.
      rewrite E. destruct (N.eqb_spec k 0) as [Q|Q]; [rewrite Q in VK; discriminate VK|]. cbn [N.eqb]. lia.
    + intros k' Q. injection Q as <-. right. exact VK.
  - (* next key *)
    destruct (lk_open x && lk_info x) eqn:E; [|split; assumption].
    cbn [lk_ok] in OK. apply andb_true_iff in OK. destruct OK as [_ OK].
    apply andb_true_iff in E. destruct E as [_ E].
    split; cbn [lk_answered lk_asked lk_owed].
    + revert A. unfold waiting. cbn [lk_owed lk_armed lk_info]. assert (W : lk_owed x = None) by (destruct (lk_owed x); [discriminate OK|reflexivity]). rewrite W.
      rewrite E. lia.
    + discriminate.
  - destruct ((s' =? s)%N && negb (lk_open x)); [|split; assumption]. split; [cbn; lia|discriminate].
  - (* request *)
    destruct (s' =? s)%N; [|split; assumption].
    cbn [lk_ok] in OK. apply andb_true_iff in OK. destruct OK as [_ OK].
    assert (W : lk_owed x = None) by (destruct (lk_owed x); [discriminate OK|reflexivity]).
    split; cbn [lk_answered lk_asked].
    + revert A. unfold waiting. cbn [lk_owed lk_armed lk_info]. rewrite W.
      destruct m as [n|n st|n|i|f| |t|t]; cbn [asks_for]; try lia; try (destruct (lk_info x); lia).
      destruct (named (lk_names x) n =? 0)%N eqn:Z; rewrite ?Z; destruct (lk_armed x =? 0)%N; lia.
    + cbn [lk_owed]. intros k Q. destruct m; cbn [asks_for] in Q;
        try (injection Q as <-; left; reflexivity); try discriminate Q;
        try (injection Q as <-; apply named_virtual).
      destruct (named (lk_names x) name =? 0)%N; [|discriminate Q]. injection Q as <-. left. reflexivity.
  - (* answer *)
    destruct (s' =? s)%N; [|split; assumption].
    cbn [lk_ok] in OK. apply andb_true_iff in OK. destruct OK as [_ OK].
    split; cbn [lk_answered lk_asked lk_owed]; [|discriminate].
    revert A. unfold waiting. cbn [lk_owed lk_armed lk_info]. destruct (lk_owed x) as [o|]; [lia|discriminate OK].
  - destruct (s' =? s)%N; [|split; assumption]. split; [|discriminate]. revert A. unfold waiting. cbn. lia.
  - split; [|discriminate]. revert A. unfold waiting. cbn. lia.
Qed.
Lemma fair_of s t : lk_ok (link_of s t) = true -> fair (link_of s t).
Proof.
  induction t as [|e t IH] using rev_ind; intro H; [split; [cbn; lia|discriminate]|].
  rewrite link_snoc in *. apply fair_step; [exact H|]. apply IH. eapply ok_step. exact H.
Qed.

(** The counters of the link and the messages on the connection. *)
Lemma link_counts s t n : nth_error t n = Some (FAccepted s) -> lk_open (link_of s (firstn n t)) = false ->
  forall v, stays s v ->
  let x := link_of s (firstn (S n) t ++ v) in
  lk_open x = true /\ lk_asked x = length (asked s v) /\ lk_answered x = length (answers s v).
Proof.
  intros E O. assert (F : firstn (S n) t = firstn n t ++ [FAccepted s]).
  { revert t E O. induction n as [|n IH]; intros [|e t] E O; try discriminate E.
    - injection E as ->. reflexivity.
    - cbn [nth_error] in E. change (firstn (S (S n)) (e :: t)) with (e :: firstn (S n) t).
      assert (G : forall t, nth_error t n = Some (FAccepted s) -> firstn (S n) t = firstn n t ++ [FAccepted s]).
      { clear. induction n as [|n IH]; intros [|e t] E; try discriminate E; [injection E as ->; reflexivity|].
        cbn [nth_error] in E. change (firstn (S (S n)) (e :: t)) with (e :: firstn (S n) t). rewrite (IH _ E). reflexivity. }
      rewrite (G _ E). reflexivity. }
  rewrite F. induction v as [|e v IH] using rev_ind; intro H; cbv zeta.
  - rewrite app_nil_r, link_snoc. cbn [link_step]. rewrite N.eqb_refl, O. auto.
  - apply Forall_app in H. destruct H as [H1 H2]. inversion H2 as [|? ? H3 _]; subst.
    destruct (IH H1) as (A & B & C). rewrite app_assoc, link_snoc, asked_app, answers_app, !app_length.
    set (x := link_of s ((firstn n t ++ [FAccepted s]) ++ v)) in *. clearbody x.
    set (a := length (asked s v)) in *. set (b := length (answers s v)) in *. clearbody a b.
    destruct e as [| | |[]|s'|s' m|[]|s' m| | |s'|]; unfold asked, answers; cbn [link_step flat_map closes] in *;
      try discriminate H3; rewrite ?H3, ?A; cbn [negb]; rewrite ?andb_false_r;
      repeat match goal with |- context [if ?b then _ else _] => destruct b end;
      cbn [app length lk_open lk_asked lk_answered]; (split; [first [assumption|reflexivity]|split; lia]).
Qed.
