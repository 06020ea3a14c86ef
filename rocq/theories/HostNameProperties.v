(** C121: who listens under the name of the server or the client is reached by those who
    connect, with assumptions and a non-trivial instance beside each theorem. *)
From Coq Require Import List Arith Bool Lia.
From Verif Require Import Base HostName.
Import ListNotations.

(** * Who does what *)

Definition actor (x : nevent) : nat := match x with NListen p | NShutdown p | NDies p => p end.
Definition by_others (p : nat) (x : nevent) : Prop := actor x <> p.
Definition listens_itself (x : nevent) : bool := match x with NListen _ => true | _ => false end.
(** Only the process [p] listens. *)
Definition alone (p : nat) (x : nevent) : Prop := listens_itself x = true -> actor x = p.

(** The processes which are running after [l], each of which listens once before it stops. *)
Fixpoint running (l : list nevent) (busy : list nat) : option (list nat) :=
  match l with
  | [] => Some busy
  | NListen p :: l => if existsb (Nat.eqb p) busy then None else running l (p :: busy)
  | NShutdown p :: l | NDies p :: l => running l (remove Nat.eq_dec p busy)
  end.

(** * Proofs *)

Section Proofs.
Variable abstract : bool.
Variable may_unlink : nat -> nat -> bool.
Variable socket_ok listen_ok : nat -> bool.
Notation step := (name_step abstract may_unlink socket_ok listen_ok).
Notation go := (name_run abstract may_unlink socket_ok listen_ok).

(** Each process has its own sockets, and an abstract name leads to an open one. *)
Record sane (n : names) : Prop := {
  sn_fd : forall q j, nm_fd n q = Some j -> j < nm_next n /\ nm_owner n j = q;
  sn_bound : forall k, nm_bound n = Some k -> k < nm_next n /\ (abstract = true -> nm_open n k = true)
}.

Lemma upd_same {A} (f : nat -> A) k x : upd f k x k = x.
Proof. unfold upd. now rewrite Nat.eqb_refl. Qed.
Lemma upd_other {A} (f : nat -> A) k x j : j <> k -> upd f k x j = f j.
Proof. unfold upd. intro H. apply Nat.eqb_neq in H. now rewrite H. Qed.

Lemma unlink_rest p n : let n' := unlink_name abstract may_unlink p n in
  nm_next n' = nm_next n /\ nm_owner n' = nm_owner n /\ nm_open n' = nm_open n /\ nm_listens n' = nm_listens n /\ nm_fd n' = nm_fd n /\
  (nm_bound n' = nm_bound n \/ nm_bound n' = None) /\ (abstract = true -> n' = n).
Proof.
  cbn zeta. unfold unlink_name. destruct abstract; [auto 10|]. destruct (nm_bound n) as [k|] eqn:B; [|intuition (try discriminate; auto)].
  destruct (may_unlink _ _); cbn; intuition (try discriminate; auto).
Qed.

Lemma sane_unlink p n : sane n -> sane (unlink_name abstract may_unlink p n).
Proof.
  intros [A B]. destruct (unlink_rest p n) as (E1 & E2 & E3 & E4 & E5 & E6 & _).
  split; rewrite ?E1, ?E2, ?E3, ?E5; [exact A|]. intros k H. destruct E6 as [E6|E6]; rewrite E6 in H; [auto|discriminate H].
Qed.
Lemma sane_close k n : sane n -> sane (close_socket abstract k n).
Proof.
  intros [A B]. split; cbn; [exact A|]. intros j H. destruct (nm_bound n) as [i|] eqn:Q; [|discriminate H].
  destruct (abstract && (i =? k)) eqn:C; [discriminate H|]. injection H as <-. destruct (B i eq_refl) as [L O]. split; [exact L|].
  intro T. rewrite T in C. cbn in C. apply Nat.eqb_neq in C. rewrite upd_other by exact C. auto.
Qed.
Lemma sane_drop p n : sane n -> sane (NM (nm_next n) (nm_owner n) (nm_open n) (nm_listens n) (nm_bound n) (upd (nm_fd n) p None)).
Proof.
  intros [A B]. split; cbn; [|exact B]. intros q j H. destruct (Nat.eq_dec q p) as [->|N]; [rewrite upd_same in H; discriminate H|].
  rewrite upd_other in H by exact N. auto.
Qed.

Lemma closes_sane p l : forall n, sane n -> sane (fold_left (fun n k => if nm_owner n k =? p then close_socket abstract k n else n) l n).
Proof. induction l as [|k l IH]; intros n H; [exact H|]. cbn [fold_left]. apply IH. destruct (_ =? _); [now apply sane_close|exact H]. Qed.

Lemma sane_step x n : sane n -> sane (step x n).
Proof.
  intro S0. destruct x as [p|p|p]; cbn [name_step].
  - unfold host_listen. set (k := nm_next n). destruct (socket_ok k); cbn [negb fst].
    + set (n1 := NM (S k) _ _ _ _ _).
      assert (S1 : sane n1).
      { destruct S0 as [A B]. split; cbn.
        - intros q j H. destruct (Nat.eq_dec q p) as [->|N].
          + rewrite upd_same in H. injection H as <-. split; [lia|apply upd_same].
          + rewrite upd_other in H by exact N. destruct (A q j H) as [L O]. split; [lia|]. rewrite upd_other; [exact O|unfold k; lia].
        - intros j H. destruct (B j H) as [L O]. split; [unfold k; lia|]. intro T. rewrite upd_other; [auto|unfold k; lia]. }
      destruct (unlink_rest p n1) as (E1 & E2 & E3 & E4 & E5 & _ & _). pose proof (sane_unlink p n1 S1) as S2.
      set (n2 := unlink_name _ _ p n1) in *. destruct (nm_bound n2) eqn:Q; [exact S2|].
      assert (S3 : sane (NM (nm_next n2) (nm_owner n2) (nm_open n2) (nm_listens n2) (Some k) (nm_fd n2))).
      { destruct S2 as [A _]. split; cbn; [exact A|]. intros j H. injection H as <-. rewrite E1, E3. cbn. split; [lia|]. intros _. apply upd_same. }
      destruct (negb (listen_ok k)); cbn [fst]; [exact S3|]. destruct S3 as [A B]. split; assumption.
    + destruct S0 as [A B]. split; cbn.
      * intros q j H. destruct (Nat.eq_dec q p) as [->|N]; [rewrite upd_same in H; discriminate H|].
        rewrite upd_other in H by exact N. destruct (A q j H) as [L O]. split; [unfold k; lia|exact O].
      * intros j H. destruct (B j H) as [L O]. split; [unfold k; lia|exact O].
  - unfold host_shutdown. destruct (nm_fd n p) as [k|]; [|exact S0]. apply sane_drop, sane_unlink, sane_close, S0.
  - unfold process_dies. apply sane_drop, closes_sane, S0.
Qed.
Lemma sane_run l : forall n, sane n -> sane (go l n).
Proof. induction l as [|x l IH]; intros n H; [exact H|]. apply IH, sane_step, H. Qed.
Lemma sane_init : sane init_names.
Proof. split; cbn; [intros q j H|intros k H]; discriminate H. Qed.

(** * A name which is held *)

Definition held (p k : nat) (n : names) : Prop :=
  nm_bound n = Some k /\ nm_open n k = true /\ nm_listens n k = true /\ nm_owner n k = p.
Lemma held_reached p k n : held p k n -> reached n = Some p.
Proof. intros (A & B & C & D). unfold reached. rewrite A, B, C, D. reflexivity. Qed.
Lemma reached_held p n : reached n = Some p -> exists k, held p k n.
Proof.
  unfold reached. destruct (nm_bound n) as [k|] eqn:Q; [|discriminate]. destruct (nm_open n k) eqn:O, (nm_listens n k) eqn:L; cbn; try discriminate.
  intro H. injection H as H. exists k. unfold held. auto.
Qed.

Lemma held_close p k j n : held p k n -> j <> k -> held p k (close_socket abstract j n).
Proof.
  intros (A & B & C & D) N. unfold held, close_socket. cbn. rewrite A.
  replace (k =? j) with false by (symmetry; apply Nat.eqb_neq; auto). rewrite andb_false_r, upd_other by auto. auto.
Qed.
Lemma held_closes p q k l : q <> p -> forall n, held p k n ->
  held p k (fold_left (fun n k => if nm_owner n k =? q then close_socket abstract k n else n) l n).
Proof.
  intro N. induction l as [|j l IH]; intros n H; [exact H|]. cbn [fold_left]. apply IH. destruct (Nat.eqb_spec (nm_owner n j) q) as [Q|_]; [|exact H].
  apply held_close; [exact H|]. intros ->. destruct H as (_ & _ & _ & D). congruence.
Qed.

Definition quiet_others (p : nat) (n : names) : Prop := forall q, q <> p -> nm_fd n q = None.

Lemma closes_fd q l : forall n, nm_fd (fold_left (fun n k => if nm_owner n k =? q then close_socket abstract k n else n) l n) = nm_fd n.
Proof. induction l as [|j l IH]; intros n; [reflexivity|]. cbn [fold_left]. rewrite IH. now destruct (_ =? _). Qed.

(** On Linux nobody takes the name from its holder; with files it stays with it when nobody
    else listens. *)
Lemma held_step p k x n : sane n -> held p k n -> by_others p x -> (abstract = true \/ quiet_others p n /\ alone p x) -> held p k (step x n).
Proof.
  intros S0 H N C. destruct x as [q|q|q]; cbn [name_step]; unfold by_others, actor in N.
  - destruct C as [T|[_ C]]; [|destruct (N (C eq_refl))]. pose proof H as (A & B & L & D). destruct (sn_bound n S0 k A) as [LT _].
    unfold host_listen. set (j := nm_next n). destruct (socket_ok j); cbn [negb fst].
    + set (n1 := NM (S j) _ _ _ _ _). destruct (unlink_rest q n1) as (_ & _ & _ & _ & _ & _ & E). rewrite (E T).
      assert (B1 : nm_bound n1 = Some k) by exact A. rewrite B1. cbn [fst]. unfold held. cbn.
      rewrite !upd_other by (unfold j; lia). auto.
    + exact H.
  - unfold host_shutdown. destruct (nm_fd n q) as [j|] eqn:F; [|exact H].
    destruct C as [T|[Q _]]; [|rewrite (Q q N) in F; discriminate F].
    destruct (sn_fd n S0 q j F) as [_ O]. assert (NJ : j <> k) by (intros ->; destruct H as (_ & _ & _ & D); congruence).
    pose proof (held_close p k j n H NJ) as H1. destruct (unlink_rest q (close_socket abstract j n)) as (_ & _ & _ & _ & _ & _ & E). rewrite (E T). exact H1.
  - unfold process_dies. pose proof (held_closes p q k (seq 0 (nm_next n)) N n H) as H1. exact H1.
Qed.

Lemma quiet_step p x n : quiet_others p n -> alone p x -> quiet_others p (step x n).
Proof.
  intros Q C q N. destruct x as [r|r|r]; cbn [name_step].
  - pose proof (C eq_refl) as E. cbn in E. subst r. unfold host_listen. set (k := nm_next n). destruct (socket_ok k); cbn [negb fst].
    + set (n1 := NM (S k) _ _ _ _ _). destruct (unlink_rest p n1) as (_ & _ & _ & _ & E5 & _ & _).
      destruct (nm_bound (unlink_name _ _ _ n1)); [|destruct (negb (listen_ok k))]; cbn [fst nm_fd]; rewrite E5; unfold n1; cbn [nm_fd]; rewrite upd_other by exact N; apply Q, N.
    + cbn. rewrite upd_other by exact N. apply Q, N.
  - unfold host_shutdown. destruct (nm_fd n r) as [j|] eqn:F; [|apply Q, N]. cbn.
    destruct (unlink_rest r (close_socket abstract j n)) as (_ & _ & _ & _ & E5 & _ & _). rewrite E5. cbn.
    destruct (Nat.eq_dec q r) as [->|NR]; [apply upd_same|]. rewrite upd_other by exact NR. apply Q, N.
  - unfold process_dies. cbn. rewrite closes_fd. destruct (Nat.eq_dec q r) as [->|NR]; [apply upd_same|]. rewrite upd_other by exact NR. apply Q, N.
Qed.
Lemma quiet_run p l : forall n, quiet_others p n -> Forall (alone p) l -> quiet_others p (go l n).
Proof. induction l as [|x l IH]; intros n Q F; [exact Q|]. inversion_clear F. apply IH; [|assumption]. now apply quiet_step. Qed.

Lemma held_run p k l : forall n, sane n -> held p k n -> Forall (by_others p) l ->
  (abstract = true \/ quiet_others p n /\ Forall (alone p) l) -> held p k (go l n).
Proof.
  induction l as [|x l IH]; intros n S0 H F C; [exact H|]. inversion_clear F. apply IH; [now apply sane_step| |assumption|].
  - apply held_step; auto. destruct C as [T|[Q C]]; [auto|right]. inversion_clear C. auto.
  - destruct C as [T|[Q C]]; [auto|right]. inversion_clear C. split; [now apply quiet_step|assumption].
Qed.

(** * Sockets of processes which run *)

(** An open socket is the one its process knows, and it runs. *)
Definition closed_but (busy : list nat) (n : names) : Prop :=
  forall k, nm_open n k = true -> nm_fd n (nm_owner n k) = Some k /\ In (nm_owner n k) busy.

Lemma closes_rest q l : forall n, let n' := fold_left (fun n k => if nm_owner n k =? q then close_socket abstract k n else n) l n in
  nm_owner n' = nm_owner n /\
  (forall k, nm_open n' k = true -> nm_open n k = true /\ (In k l -> nm_owner n k <> q)).
Proof.
  cbn zeta. induction l as [|j l IH]; intros n; cbn [fold_left]; [split; [reflexivity|intros k H; split; [exact H|intros []]]|].
  destruct (IH (if nm_owner n j =? q then close_socket abstract j n else n)) as [E O]. split.
  - rewrite E. now destruct (_ =? _).
  - intros k H. destruct (O k H) as [O1 O2]. clear O H. destruct (Nat.eqb_spec (nm_owner n j) q) as [Q|Q].
    + cbn in O1, O2. destruct (Nat.eq_dec k j) as [->|N]; [rewrite upd_same in O1; discriminate O1|].
      rewrite upd_other in O1 by exact N. split; [exact O1|]. intros [->|I]; [now destruct N|auto].
    + split; [exact O1|]. intros [->|I]; auto.
Qed.

Lemma in_removed p q busy : In q busy -> q <> p -> In q (remove Nat.eq_dec p busy).
Proof. intros I N. apply in_in_remove; assumption. Qed.

Lemma closed_step x busy n : sane n -> closed_but busy n ->
  match x with
  | NListen p => ~ In p busy -> closed_but (p :: busy) (step x n)
  | NShutdown p | NDies p => closed_but (remove Nat.eq_dec p busy) (step x n)
  end.
Proof.
  intros S0 C. destruct x as [p|p|p]; cbn [name_step].
  - intro NB. unfold host_listen. set (j := nm_next n). destruct (socket_ok j); cbn [negb fst].
    + set (n1 := NM (S j) _ _ _ _ _).
      assert (C1 : closed_but (p :: busy) n1).
      { intros k H. cbn in *. destruct (Nat.eq_dec k j) as [->|N].
        - rewrite !upd_same. auto.
        - rewrite upd_other in H by exact N. rewrite !(upd_other (nm_owner n)) by exact N. destruct (C k H) as [F I].
          rewrite upd_other; [auto|]. intro Q. rewrite Q in I. auto. }
      destruct (unlink_rest p n1) as (_ & E2 & E3 & _ & E5 & _).
      assert (C2 : forall m, nm_owner m = nm_owner n1 -> nm_open m = nm_open n1 -> nm_fd m = nm_fd n1 -> closed_but (p :: busy) m).
      { intros m A B D k H. rewrite B in H. rewrite A, D. auto. }
      destruct (nm_bound (unlink_name _ _ _ n1)); [|destruct (negb (listen_ok j))]; cbn [fst]; apply C2; assumption.
    + intros k H. cbn in *. destruct (C k H) as [F I]. rewrite upd_other; [auto|]. intro Q. rewrite Q in I. auto.
  - unfold host_shutdown. destruct (nm_fd n p) as [j|] eqn:F.
    + destruct (unlink_rest p (close_socket abstract j n)) as (_ & E2 & E3 & _ & E5 & _).
      intros k H. cbn in *. rewrite E3 in H. rewrite E2, E5. cbn in *.
      destruct (Nat.eq_dec k j) as [->|N]; [rewrite upd_same in H; discriminate H|]. rewrite upd_other in H by exact N.
      destruct (C k H) as [G I]. assert (NP : nm_owner n k <> p) by (intro Q; rewrite Q in G; congruence).
      rewrite upd_other by exact NP. split; [exact G|now apply in_removed].
    + intros k H. destruct (C k H) as [G I]. assert (NP : nm_owner n k <> p) by (intro Q; rewrite Q in G; congruence).
      split; [exact G|now apply in_removed].
  - unfold process_dies. destruct (closes_rest p (seq 0 (nm_next n)) n) as [E O]. intros k H. cbn in *. destruct (O k H) as [O1 O2].
    rewrite E, closes_fd. destruct (C k O1) as [G I]. destruct (sn_fd n S0 _ _ G) as [L _].
    assert (NP : nm_owner n k <> p) by (apply O2, in_seq; lia). rewrite upd_other by exact NP. split; [exact G|now apply in_removed].
Qed.

Lemma closed_run l : forall busy b n, sane n -> closed_but busy n -> running l busy = Some b -> closed_but b (go l n).
Proof.
  induction l as [|x l IH]; intros busy b n S0 C R; [injection R as <-; exact C|].
  pose proof (closed_step x busy n S0 C) as C1. pose proof (sane_step x n S0) as S1.
  change (go (x :: l) n) with (go l (step x n)). destruct x as [p|p|p]; cbn [running] in R.
  - destruct (existsb (Nat.eqb p) busy) eqn:X; [discriminate R|]. apply (IH (p :: busy)); auto. apply C1. intro I.
    apply (not_true_iff_false (existsb (Nat.eqb p) busy)); [exact X|]. apply existsb_exists. exists p. split; [exact I|apply Nat.eqb_refl].
  - apply (IH (remove Nat.eq_dec p busy)); auto.
  - apply (IH (remove Nat.eq_dec p busy)); auto.
Qed.
End Proofs.

(** * The theorems *)

(** Who succeeds to listen is reached, on all systems. *)
Theorem C121_listens : forall abstract may_unlink socket_ok listen_ok p n n',
  host_listen abstract may_unlink socket_ok listen_ok p n = (n', true) -> reached n' = Some p.
Proof.
  intros ab mu so li p n n' H. unfold host_listen in H. destruct (so (nm_next n)); [|discriminate H]. cbn [negb] in H.
  set (n1 := NM (S _) _ _ _ _ _) in H. destruct (unlink_rest ab mu so li p n1) as (_ & E2 & E3 & _).
  destruct (nm_bound (unlink_name ab mu p n1)); [discriminate H|]. destruct (li (nm_next n)); [|discriminate H]. cbn [negb] in H.
  injection H as <-. unfold reached. cbn. rewrite E2, E3. cbn. rewrite !upd_same. reflexivity.
Qed.
Print Assumptions C121_listens.

(** It stays so whatever other processes do, start, stop or die, as long as it does nothing
    itself: on Linux always, elsewhere when no other process ever listens. *)
Theorem C121_kept_partial : forall abstract may_unlink socket_ok listen_ok p l l',
  let n := name_run abstract may_unlink socket_ok listen_ok l init_names in
  reached n = Some p -> Forall (by_others p) l' -> (abstract = true \/ Forall (alone p) (l ++ l')) ->
  reached (name_run abstract may_unlink socket_ok listen_ok l' n) = Some p.
Proof.
  intros ab mu so li p l l' n R F C. destruct (reached_held p n R) as [k H].
  apply (held_reached p k). apply held_run; [apply sane_run, sane_init|exact H|exact F|]. destruct C as [T|C]; [auto|right].
  apply Forall_app in C. destruct C as [C1 C2]. split; [|exact C2]. apply quiet_run; [intros q _; reflexivity|exact C1].
Qed.
Print Assumptions C121_kept_partial.

(** On Linux a second process which listens is told that it cannot. *)
Theorem C121_second_partial : forall may_unlink socket_ok listen_ok p q l,
  let n := name_run true may_unlink socket_ok listen_ok l init_names in
  reached n = Some p -> snd (host_listen true may_unlink socket_ok listen_ok q n) = false.
Proof.
  intros mu so li p q l n R. destruct (reached_held p n R) as (k & A & _). unfold host_listen, unlink_name.
  destruct (so (nm_next n)); [|reflexivity]. cbn. rewrite A. reflexivity.
Qed.
Print Assumptions C121_second_partial.

(** When all processes ended, in whichever way, the next one can listen and is reached:
    with files if it may remove what is left of the others. *)
Theorem C121_free : forall abstract may_unlink socket_ok listen_ok p l,
  let n := name_run abstract may_unlink socket_ok listen_ok l init_names in
  running l [] = Some [] -> (abstract = false -> forall q, may_unlink p q = true) ->
  socket_ok (nm_next n) = true -> listen_ok (nm_next n) = true ->
  snd (host_listen abstract may_unlink socket_ok listen_ok p n) = true.
Proof.
  intros ab mu so li p l n RN MU SO LO.
  assert (CL : forall k, nm_open n k = false).
  { intro k. apply not_true_iff_false. intro H. assert (C : closed_but [] n); [|destruct (C k H) as [_ []]].
    apply (closed_run ab mu so li l [] []); [apply sane_init|intros j J; discriminate J|exact RN]. }
  pose proof (sane_run ab mu so li l init_names (sane_init ab)) as SN. fold n in SN.
  unfold host_listen. rewrite SO. cbn [negb]. set (n1 := NM (S _) _ _ _ _ _).
  assert (B : nm_bound (unlink_name ab mu p n1) = None).
  { unfold unlink_name. destruct ab.
    - cbn. destruct (nm_bound n) as [k|] eqn:Q; [|reflexivity]. destruct (sn_bound true n SN k Q) as [_ O]. rewrite CL in O. discriminate (O eq_refl).
    - destruct (nm_bound n1) eqn:Q; [|exact Q]. rewrite (MU eq_refl). reflexivity. }
  rewrite B, LO. reflexivity.
Qed.
Print Assumptions C121_free.

(** Who is reached runs and has not stopped since it listened. *)
Theorem C121_gone : forall abstract may_unlink socket_ok listen_ok l b p,
  running l [] = Some b -> reached (name_run abstract may_unlink socket_ok listen_ok l init_names) = Some p -> In p b.
Proof.
  intros ab mu so li l b p RN R. destruct (reached_held p _ R) as (k & _ & O & _ & E).
  assert (C : closed_but b (name_run ab mu so li l init_names)).
  { apply (closed_run ab mu so li l [] b); [apply sane_init|intros j J; discriminate J|exact RN]. }
  destruct (C k O) as [_ I]. rewrite E in I. exact I.
Qed.
Print Assumptions C121_gone.

Definition yes (_ : nat) : bool := true.
Definition anyone (_ _ : nat) : bool := true.
(** A server dies and another one is started, while a third one tries to. *)
Example C121_case :
  let go ab l := name_run ab anyone yes yes l init_names in
  reached (go true [NListen 1; NListen 2; NShutdown 2; NDies 3]) = Some 1 /\
  reached (go true [NListen 1; NListen 2; NDies 1]) = None /\
  reached (go true [NListen 1; NListen 2; NDies 1; NShutdown 2; NListen 2; NListen 3]) = Some 2 /\
  reached (go false [NListen 1; NShutdown 3; NDies 2]) = Some 1 /\
  reached (go false [NListen 1; NDies 1; NListen 2]) = Some 2 /\
  Forall (by_others 1) [NListen 2; NShutdown 2; NDies 3] /\ Forall (alone 1) [NListen 1; NShutdown 3; NDies 2].
Proof.
  cbn zeta. repeat (split; [vm_compute; reflexivity|]). split; repeat constructor; try discriminate; intro; try reflexivity; discriminate.
Qed.

(** One was killed, one is listening, one found the name in use. *)
Example C121_gone_case :
  let l := [NListen 1; NDies 1; NListen 3; NListen 2; NShutdown 2] in
  running l [] = Some [3] /\ reached (name_run true anyone yes yes l init_names) = Some 3.
Proof. vm_compute. auto. Qed.
(** The server was killed, with a file left over. *)
Example C121_free_case :
  let n := name_run false anyone yes yes [NListen 1; NDies 1] init_names in
  running [NListen 1; NDies 1] [] = Some [] /\ nm_bound n = Some 0 /\ reached n = None /\
  reached (fst (host_listen false anyone yes yes 2 n)) = Some 2.
Proof.
  vm_compute. auto.
Qed.

(** Where names are files a second process takes the name of the first one, which still
    listens; and when the first one stops, nobody reaches the second one, which still listens. *)
Theorem C121_kept_refuted : exists p q l,
  let go l := name_run false anyone yes yes l init_names in
  p <> q /\ Forall (by_others p) [NListen q] /\ reached (go l) = Some p /\
  reached (go (l ++ [NListen q])) = Some q /\
  (exists k, nm_fd (go (l ++ [NListen q])) p = Some k /\ nm_open (go (l ++ [NListen q])) k = true /\ nm_listens (go (l ++ [NListen q])) k = true) /\
  reached (go (l ++ [NListen q; NShutdown p])) = None /\
  exists k, nm_fd (go (l ++ [NListen q; NShutdown p])) q = Some k /\
    nm_open (go (l ++ [NListen q; NShutdown p])) k = true /\ nm_listens (go (l ++ [NListen q; NShutdown p])) k = true.
Proof.
  exists 1, 2, [NListen 1]. cbn zeta. split; [discriminate|]. split; [repeat constructor; discriminate|].
  split; [vm_compute; reflexivity|]. split; [vm_compute; reflexivity|].
  split; [exists 0; vm_compute; auto|]. split; [vm_compute; reflexivity|]. exists 1. vm_compute. auto.
Qed.
Print Assumptions C121_kept_refuted.
