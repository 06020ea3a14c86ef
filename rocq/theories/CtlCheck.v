(** Decision procedures for the examples about keymapperctl and the client. *)
From Coq Require Import String Ascii List Arith NArith ZArith Bool Lia.
From Verif Require Import Base Key Text Serial SerialSpec Client ClientSpec Ctl CtlSpec CtlLink CtlSystem.
Import ListNotations.
Local Open Scope N_scope.

Definition rcall_eq_dec (a b : rcall) : {a = b} + {a <> b}.
Proof. decide equality; auto using (list_eq_dec ascii_dec), N.eq_dec. Defined.

Fixpoint prefixb {A} (dec : forall a b : A, {a = b} + {a <> b}) (a b : list A) : bool :=
  match a, b with
  | [], _ => true
  | x :: a', y :: b' => if dec x y then prefixb dec a' b' else false
  | _ :: _, [] => false
  end.
Lemma prefixb_sound {A} dec (a : list A) : forall b, prefixb dec a b = true -> prefix a b.
Proof.
  induction a as [|x a IH]; intros b H; [exists b; reflexivity|].
  destruct b as [|y b]; [discriminate H|]. cbn [prefixb] in H. destruct (dec x y) as [Q|]; [|discriminate H]. subst y.
  destruct (IH b H) as [c ->]. exists c. reflexivity.
Qed.

Definition delivered (at_client : nat -> N * nat) (p : log) : bool :=
  match session_of (ctl_of p) with
  | None => true
  | Some (sent, read) =>
      let '(s, n) := at_client (connected (ctl_of p)) in
      match nth_error (client_of p) n with Some (FAccepted s') => s' =? s | _ => false end &&
      negb (lk_open (link_of s (firstn n (client_of p)))) &&
      prefixb rcall_eq_dec (asked s (on_connection s n (client_of p))) (flat_map rcalls sent) &&
      prefixb ascii_dec read (stream (map write_amsg (answers s (on_connection s n (client_of p)))))
  end.
Definition deliversb (at_client : nat -> N * nat) (l : log) : bool :=
  forallb (fun i => delivered at_client (firstn i l)) (seq 0 (S (length l))).
Lemma prefix_firstn {A} (p l : list A) : prefix p l -> p = firstn (length p) l /\ (length p <= length l)%nat.
Proof.
  intros [c ->]. split; [rewrite firstn_app, Nat.sub_diag, firstn_all, app_nil_r; reflexivity|rewrite app_length; lia].
Qed.
Lemma deliversb_sound at_client l : deliversb at_client l = true -> delivers at_client l.
Proof.
  intros H p PR. destruct (prefix_firstn p l PR) as [Q LE]. unfold deliversb in H. rewrite forallb_forall in H.
  specialize (H (length p)). rewrite <- Q in H.
  assert (HI : In (length p) (seq 0 (S (length l)))) by (apply List.in_seq; lia). specialize (H HI). unfold delivered in H.
  destruct (session_of (ctl_of p)) as [[sent read]|]; [|exact I].
  destruct (at_client (connected (ctl_of p))) as [s n].
  rewrite !andb_true_iff in H. destruct H as (((H1 & H2) & H3) & H4).
  split; [|split; [|split]].
  - destruct (nth_error (client_of p) n) as [[]|]; try discriminate H1. apply N.eqb_eq in H1. subst. reflexivity.
  - apply negb_true_iff. exact H2.
  - apply prefixb_sound in H3. exact H3.
  - apply prefixb_sound in H4. exact H4.
Qed.

(** A log in the order [true]: client, [false]: keymapperctl. *)
Fixpoint weave (o : list bool) (t : trace) (g : list geffect) : log :=
  match o, t, g with
  | true :: o', e :: t', _ => AC e :: weave o' t' g
  | false :: o', _, e :: g' => AG e :: weave o' t g'
  | _, _, _ => []
  end.
Lemma weave_parts o : forall t g, prefix (client_of (weave o t g)) t /\ prefix (ctl_of (weave o t g)) g.
Proof.
  induction o as [|b o IH]; intros t g; [split; eexists; reflexivity|].
  destruct b; [destruct t as [|e t]|destruct g as [|e g]]; cbn [weave];
    try (split; eexists; reflexivity); destruct (IH t g) as [[x H] [y K]].
  - split; [exists x; cbn; f_equal; exact H|exists y; exact K].
  - destruct t as [|e' t]; (split; [exists x; exact H|exists y; cbn; f_equal; exact K]).
Qed.
(** A number of turns each. *)
Definition turns (l : list (bool * nat)) : list bool := flat_map (fun x => repeat (fst x) (snd x)) l.

(** Properties of all moments. *)
Lemma throughout_name n k t v :
  forallb (fun i => named (names_of (t ++ firstn i v)) n =? k) (seq 0 (S (length v))) = true ->
  throughout (fun t => named (names_of t) n = k) t v.
Proof.
  intros H a b ->. rewrite forallb_forall in H. specialize (H (length a)).
  rewrite firstn_app, Nat.sub_diag, firstn_all, firstn_O, app_nil_r in H. apply N.eqb_eq. apply H. apply List.in_seq.
  rewrite app_length. lia.
Qed.
Definition changesb (k : key) (t : trace) : bool :=
  forallb (fun i => match nth_error t i with
                    | Some (FGot (DVirtual k' st)) =>
                        negb (k' =? k) || Bool.eqb (st =? 1) (negb (reported k (firstn i t)))
                    | _ => true end) (seq 0 (length t)).
Lemma changesb_sound k t : changesb k t = true -> only_changes k t.
Proof.
  intros H a st b ->. unfold changesb in H. rewrite forallb_forall in H. specialize (H (length a)).
  rewrite nth_error_app2, Nat.sub_diag in H by lia. cbn [nth_error] in H.
  rewrite firstn_app, Nat.sub_diag, firstn_all, firstn_O, app_nil_r, N.eqb_refl in H. cbn [negb orb] in H.
  apply eqb_prop. apply H. apply List.in_seq. rewrite app_length. cbn [length]. lia.
Qed.

(** std::atoi of digits *)
Fixpoint digits (v : Z) (t : text) : Z :=
  match t with
  | c :: r => if (48 <=? N_of_ascii c) && (N_of_ascii c <=? 57)
              then digits (10 * v + Z.of_N (N_of_ascii c - 48)) r else v
  | [] => v
  end.

Definition askedb (r : rcall) (t : trace) : bool :=
  existsb (fun e => match e with FAsked _ r' => if rcall_eq_dec r' r then true else false | _ => false end) t.
Lemma never_asked r t : askedb r t = false -> forall s, ~ In (FAsked s r) t.
Proof.
  intros H s HI. assert (Q : askedb r t = true); [|congruence]. apply existsb_exists. exists (FAsked s r). split; [exact HI|].
  destruct (rcall_eq_dec r r) as [_|F]; [reflexivity|destruct (F eq_refl)].
Qed.
