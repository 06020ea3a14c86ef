(** The conversions between milliseconds and std::chrono::duration<double>, for all
    values of events (KeyEvent.h:34: 12 bits). *)
From Coq Require Import List Arith NArith ZArith Bool Lia SpecFloat.
From Verif Require Import Base Key Match Stage MultiStage Server.
Import ListNotations.
Local Open Scope N_scope.

Definition all_below (n : N) (f : N -> bool) : bool :=
  snd (N.iter n (fun p => (fst p + 1, snd p && f (fst p))) (0, true)).
Lemma all_below_spec : forall n f, all_below n f = true -> forall v, v < n -> f v = true.
Proof.
  intros n f. unfold all_below.
  assert (H : let p := N.iter n (fun p => (fst p + 1, snd p && f (fst p))) (0, true) in
              fst p = n /\ (snd p = true -> forall v, v < n -> f v = true)).
  { induction n as [|n IH] using N.peano_ind; [split; [reflexivity|intros _ v H; lia]|].
    cbn zeta in *. rewrite N.iter_succ. cbn [fst snd]. destruct IH as [E IH]. rewrite E. split; [lia|].
    intros H. apply andb_prop in H as [H1 H2]. intros v Hv. destruct (N.eq_dec v n) as [->|Hn]; [exact H2|].
    apply IH; [exact H1|lia]. }
  apply H.
Qed.

(** A delay is scheduled for the exact time or one nanosecond earlier. *)
Theorem delay_ticks : forall v, v < 4096 ->
  (Z.of_N v * 1000000 - 1 <= duration_ticks 1000000000 (duration_of_ms v) <= Z.of_N v * 1000000)%Z.
Proof.
  intros v Hv.
  assert (H : all_below 4096 (fun v => let t := duration_ticks 1000000000 (duration_of_ms v) in
     (Z.of_N v * 1000000 - 1 <=? t) && (t <=? Z.of_N v * 1000000))%Z = true) by (vm_compute; reflexivity).
  pose proof (all_below_spec _ _ H v Hv) as G. cbv beta zeta in G. apply andb_prop in G as [A B].
  apply Z.leb_le in A, B. split; assumption.
Qed.

(** The values which come back one millisecond short. *)
Definition short_values : list N :=
  [1001; 1003; 1005; 1007; 1009; 1011; 1013; 1015; 1017; 1019; 1021; 1023;
   2002; 2006; 2010; 2014; 2018; 2022; 2026; 2030; 2034; 2038; 2042; 2046;
   4004; 4007; 4012; 4015; 4020; 4023; 4028; 4031; 4036; 4039; 4044; 4047;
   4052; 4055; 4060; 4063; 4068; 4071; 4076; 4079; 4084; 4087; 4092; 4095].

Theorem expired_value : forall v, v < 4096 ->
  (~ In v short_values -> expired_event (duration_of_ms v) = Ev k_timeout Up v) /\
  (In v short_values -> expired_event (duration_of_ms v) = Ev k_timeout Up (v - 1)).
Proof.
  intros v Hv.
  assert (H : all_below 4096 (fun v => ev (expired_event (duration_of_ms v)) =?
     if existsb (N.eqb v) short_values then v - 1 else v) = true) by (vm_compute; reflexivity).
  pose proof (all_below_spec _ _ H v Hv) as G. cbv beta in G. apply N.eqb_eq in G.
  change (expired_event (duration_of_ms v)) with (Ev k_timeout Up (ev (expired_event (duration_of_ms v)))).
  rewrite G. split; intros Hi.
  - destruct (existsb _ _) eqn:E; [|reflexivity]. apply existsb_exists in E as (x & Hx & E). apply N.eqb_eq in E.
    subst x. contradiction.
  - replace (existsb _ _) with true; [reflexivity|]. symmetry. apply existsb_exists. exists v.
    split; [exact Hi|apply N.eqb_refl].
Qed.

(** An ended timeout counts the full milliseconds up to the largest value. *)
Theorem elapsed_value : forall ns, (0 <= ns < 2147483648 * 1000000)%Z ->
  elapsed_event ns = Ev k_timeout Up (Z.to_N (Z.min (ns / 1000000) 4095)).
Proof.
  intros ns H. unfold elapsed_event, make_input_timeout_event, duration_to_timeout, to_int32.
  rewrite Z.quot_div_nonneg by lia. set (q := (ns / 1000000)%Z).
  assert (Hq : (0 <= q < 2147483648)%Z).
  { unfold q. split; [apply Z.div_pos; lia|]. apply Z.div_lt_upper_bound; lia. }
  change (2 ^ 31)%Z with 2147483648%Z. change (2 ^ 32)%Z with 4294967296%Z.
  rewrite Z.mod_small by lia. f_equal. f_equal. lia.
Qed.
