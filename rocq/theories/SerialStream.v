(** Proofs about sending and receiving over a socket. *)
From Coq Require Import String Ascii List Arith NArith ZArith Bool Lia.
From Verif Require Import Base Key Text Match Stage Config MultiStage Serial SerialSpec SerialProofs.
Import ListNotations.
Local Open Scope nat_scope.

(** * Sending *)

Lemma send_loop_spec k : forall b res out k', send_loop k b = (res, out, k') ->
  exists rest, b = out ++ rest /\ (res = Some true -> rest = []).
Proof.
  induction k as [|x k IH]; intros b res out k' H.
  - destruct b as [|c b]; cbn [send_loop] in H; inversion H; subst.
    + exists []. split; [reflexivity|auto].
    + exists (c :: b). split; [reflexivity|discriminate].
  - destruct b as [|c b]; [cbn [send_loop] in H; inversion H; subst; exists []; auto|].
    set (cb := c :: b) in *. assert (E : send_loop (x :: k) cb =
      match x with
      | SAgain | SIntr => send_loop k cb
      | SFail => (Some false, [], k)
      | SSent n => if Nat.eqb n 0 then (Some false, [], k)
                   else let '(res, out, r') := send_loop k (skipn n cb) in
                        (res, firstn n cb ++ out, r')
      end) by (destruct x; reflexivity).
    rewrite E in H. clear E. destruct x as [n| | |].
    + destruct (Nat.eqb n 0).
      * inversion H; subst. exists cb. split; [reflexivity|discriminate].
      * destruct (send_loop k (skipn n cb)) as [[r o] q] eqn:E. inversion H; subst.
        destruct (IH _ _ _ _ E) as (rest & B & T). exists rest. split; [|exact T].
        rewrite <- app_assoc, <- B. symmetry. apply firstn_skipn.
    + exact (IH _ _ _ _ H).
    + exact (IH _ _ _ _ H).
    + inversion H; subst. exists cb. split; [reflexivity|discriminate].
Qed.

Lemma frame_le p : (N.of_nat (length p) < 2 ^ 32)%N ->
  frame p = write_u32 (N.of_nat (length p)) ++ p.
Proof. intro L. unfold frame, write_u32. rewrite length_bytes_le by exact L. reflexivity. Qed.

Lemma send_message_spec k p res out k' : (N.of_nat (length p) < 2 ^ 32)%N ->
  send_message k p = (res, out, k') ->
  exists rest, frame p = out ++ rest /\ (res = Some true -> rest = []).
Proof.
  intros L H. rewrite frame_le by exact L. unfold send_message in H.
  set (h := write_u32 (N.of_nat (length p))) in *. clearbody h.
  destruct (send_loop k h) as [[r o] q] eqn:E. destruct (send_loop_spec _ _ _ _ _ E) as (rest & B & T).
  destruct r as [[|]|].
  - specialize (T eq_refl). subst rest. rewrite app_nil_r in B. subst o.
    destruct (send_loop q p) as [[r2 o2] q2] eqn:E2. inversion H; subst.
    destruct (send_loop_spec _ _ _ _ _ E2) as (rest & B & T). exists rest. split; [|exact T].
    rewrite <- app_assoc, <- B. reflexivity.
  - injection H as <- <- <-. exists (rest ++ p). split; [rewrite app_assoc, <- B; reflexivity|discriminate].
  - injection H as <- <- <-. exists (rest ++ p). split; [rewrite app_assoc, <- B; reflexivity|discriminate].
Qed.

Lemma send_messages_spec l : Forall short l -> forall k res out,
  send_messages k l = (res, out) ->
  exists rest, stream l = out ++ rest /\ (res = Some true -> rest = []).
Proof.
  induction 1 as [|p l Hp Hl IH]; intros k res out H; cbn [send_messages stream flat_map] in *.
  - inversion H; subst. exists []. auto.
  - destruct (send_message k p) as [[r o] q] eqn:E.
    destruct (send_message_spec _ _ _ _ _ Hp E) as (rest & B & T).
    destruct r as [[|]|].
    + specialize (T eq_refl). subst rest. rewrite app_nil_r in B.
      destruct (send_messages q l) as [r2 o2] eqn:E2. inversion H; subst.
      destruct (IH _ _ _ E2) as (rest & B2 & T2). exists rest. split; [|exact T2].
      rewrite <- app_assoc. unfold stream in B2. rewrite <- B2. reflexivity.
    + injection H as <- <-. exists (rest ++ flat_map frame l).
      split; [rewrite app_assoc, <- B; reflexivity|discriminate].
    + injection H as <- <-. exists (rest ++ flat_map frame l).
      split; [rewrite app_assoc, <- B; reflexivity|discriminate].
Qed.

(** * Receiving bytes *)

Lemma pending_data k : pending_bytes k = length (data k).
Proof.
  induction k as [|x k IH]; [reflexivity|]. unfold pending_bytes in *. cbn [fold_right data].
  destruct x; cbn [length]; rewrite ?app_length, IH; reflexivity.
Qed.

Lemma recv_some_spec k : alive k -> forall len,
  exists b k', recv_some len k = (Some b, k') /\ data k = b ++ data k' /\ alive k' /\
    pauses k' <= pauses k /\
    (length b < len -> k' = [] \/ pauses k' < pauses k).
Proof.
  induction k as [|x k IH]; intros A len.
  - exists [], []. destruct len; cbn; repeat split; try constructor; auto; lia.
  - assert (A' : alive k) by (inversion A; assumption).
    destruct len as [|len].
    { exists [], (x :: k). cbn [recv_some length app]. repeat split; [exact A|lia|lia]. }
    assert (D : forall y, pauses (y :: k) =
              (match y with KAgain => 1 | _ => 0 end + pauses k)%nat)
      by (intro y; destruct y; reflexivity).
    destruct x as [b| | | |]; cbn [recv_some].
    + destruct (Nat.leb_spec (length b) (S len)) as [L|L].
      * destruct (IH A' (S len - length b)) as (b' & k' & E & DT & AL & P & S).
        rewrite E. exists (b ++ b'), k'. cbn [option_map data]. rewrite D. cbn [Nat.add].
        repeat split; [rewrite DT, app_assoc; reflexivity|exact AL|exact P|].
        rewrite app_length. intro LT. apply S. lia.
      * exists (firstn (S len) b), (KData (skipn (S len) b) :: k). cbn [data]. rewrite !D.
        repeat split.
        -- rewrite app_assoc, firstn_skipn. reflexivity.
        -- constructor; [exact I|exact A'].
        -- lia.
        -- rewrite firstn_length. lia.
    + exists [], k. rewrite D. repeat split; [exact A'|lia|intros _; right; lia].
    + destruct (IH A' (S len)) as (b' & k' & E & DT & AL & P & S).
      exists b', k'. rewrite E, D. cbn [data Nat.add]. repeat split; assumption.
    + exfalso. inversion A as [|? ? F]; exact F.
    + exfalso. inversion A as [|? ? F]; exact F.
Qed.

Lemma recv_loop_spec fuel : forall d cap k, alive k -> length d <= cap -> length (data k) < fuel ->
  exists got k', recv_loop fuel d cap k = (RecvOk (d ++ got), k') /\ data k = got ++ data k' /\
    alive k' /\ (k' = [] \/ pauses k' < pauses k).
Proof.
  induction fuel as [|fuel IH]; intros d cap k A C L; [lia|].
  cbn [recv_loop].
  set (cap' := if Nat.eqb (length d) cap then cap + 1024 else cap).
  assert (C' : length d < cap')
    by (unfold cap'; destruct (Nat.eqb_spec (length d) cap); lia).
  destruct (recv_some_spec k A (cap' - length d)) as (b & k' & E & DT & AL & P & S).
  rewrite E. destruct b as [|c b].
  - exists [], k'. rewrite app_nil_r. cbn [app] in DT. repeat split; [exact DT|exact AL|].
    apply S. cbn [length]. lia.
  - assert (B : length d + length (c :: b) <= cap').
    { assert (LB : length (c :: b) <= cap' - length d); [|lia].
      clear - E. revert E. generalize (c :: b). generalize (cap' - length d).
      revert k'. induction k as [|x k IHk]; intros k' n l E.
      - destruct n; cbn in E; inversion E; subst; cbn; lia.
      - destruct n as [|n]; [cbn in E; inversion E; subst; cbn; lia|].
        destruct x as [b0| | | |]; cbn [recv_some] in E.
        + destruct (Nat.leb_spec (length b0) (S n)).
          * destruct (recv_some (S n - length b0) k) as [[o|] q] eqn:Q; cbn in E; inversion E; subst.
            specialize (IHk _ _ _ Q). rewrite app_length. lia.
          * assert (Q : l = firstn (S n) b0) by congruence. rewrite Q, firstn_length. lia.
        + inversion E; subst; cbn; lia.
        + exact (IHk _ _ _ E).
        + discriminate.
        + discriminate. }
    destruct (IH (d ++ c :: b) cap' k' AL) as (got & k2 & E2 & DT2 & AL2 & P2).
    + rewrite app_length. exact B.
    + rewrite DT, app_length in L. cbn [length] in L. lia.
    + exists ((c :: b) ++ got), k2. rewrite E2.
      repeat split; [rewrite app_assoc; reflexivity|rewrite DT, DT2, app_assoc; reflexivity|exact AL2|].
      destruct P2 as [P2|P2]; [left; exact P2|right; lia].
Qed.

Lemma recv_all_spec d k : alive k ->
  exists got k', recv_all d k = (RecvOk (d ++ got), k') /\ data k = got ++ data k' /\
    alive k' /\ (k' = [] \/ pauses k' < pauses k).
Proof.
  intro A. apply recv_loop_spec; [exact A|lia|]. rewrite pending_data. lia.
Qed.

(** * Taking messages out of the bytes *)

Section Messages.
Context {A : Type}.
Variable deserialize : rd (list A).

(** Messages, as bytes and as what they are to be taken for. *)
Definition good (m : bytes * list A) : Prop :=
  short (fst m) /\ decodes deserialize (fst m) (snd m).

Lemma messages_loop_spec l : Forall good l ->
  forall fuel pre rest later u b s,
    rest ++ later = stream (map fst l) -> length rest < fuel ->
    exists i left,
      i <= length l /\
      messages_loop deserialize fuel (Rd (pre ++ rest) (length pre) u b s) =
        (Some true, flat_map snd (firstn i l),
         Rd (pre ++ rest) (length pre + length (stream (map fst (firstn i l)))) u b s) /\
      rest = stream (map fst (firstn i l)) ++ left /\
      (forall m r, skipn i l = m :: r -> length left < length (frame (fst m))) /\
      (skipn i l = [] -> left = []).
Proof.
  induction 1 as [|m l Hm Hl IH]; intros fuel pre rest later u b s E F.
  - cbn [map stream flat_map] in E. apply app_eq_nil in E. destruct E; subst rest later.
    exists 0, []. cbn [firstn skipn flat_map map stream length].
    split; [lia|]. destruct fuel as [|fuel]; [cbn in F; lia|].
    rewrite Nat.add_0_r. split; [|split; [reflexivity|split; [discriminate|reflexivity]]].
    cbn [messages_loop]. unfold can_read. cbn [r_buf r_it]. rewrite app_nil_r.
    destruct (Nat.leb_spec (length pre + 4) (length pre)); [lia|reflexivity].
  - destruct m as [p a]. destruct Hm as [HS HD]. cbn [fst snd] in HS, HD.
    cbn [map fst stream flat_map] in E. unfold short in HS.
    rewrite frame_le in E by exact HS.
    destruct fuel as [|fuel]; [lia|].
    assert (HL : length (write_u32 (N.of_nat (length p))) = 4) by (apply le_length).
    assert (NoMsg : length rest < 4 + length p ->
      exists i left, i <= length ((p, a) :: l) /\
        (Some true, [], Rd (pre ++ rest) (length pre) u b s) =
          (Some true, flat_map snd (firstn i ((p, a) :: l)),
           Rd (pre ++ rest) (length pre + length (stream (map fst (firstn i ((p, a) :: l))))) u b s) /\
        rest = stream (map fst (firstn i ((p, a) :: l))) ++ left /\
        (forall m r, skipn i ((p, a) :: l) = m :: r -> length left < length (frame (fst m))) /\
        (skipn i ((p, a) :: l) = [] -> left = [])).
    { intro LT. exists 0, rest. cbn [firstn skipn flat_map map stream length app].
      rewrite Nat.add_0_r. split; [lia|]. split; [reflexivity|]. split; [reflexivity|].
      split; [|discriminate]. intros m r Q. inversion Q; subst.
      cbn [fst]. rewrite frame_le by exact HS. rewrite app_length, HL. lia. }
    cbn [messages_loop].
    destruct (can_read 4 (Rd (pre ++ rest) (length pre) u b s)) eqn:C4.
    2: { apply NoMsg. unfold can_read in C4. cbn [r_buf r_it] in C4.
         apply Nat.leb_gt in C4. rewrite app_length in C4. lia. }
    assert (R4 : exists rest1, rest = write_u32 (N.of_nat (length p)) ++ rest1 /\
              rest1 ++ later = p ++ flat_map frame (map fst l)).
    { unfold can_read in C4. cbn [r_buf r_it] in C4.
      apply Nat.leb_le in C4. rewrite app_length in C4.
      exists (skipn 4 rest). split.
      - rewrite <- (firstn_skipn 4 rest) at 1. f_equal.
        assert (Q : firstn 4 (rest ++ later) = firstn 4 (write_u32 (N.of_nat (length p)) ++ p ++ flat_map frame (map fst l))).
        { rewrite E. rewrite <- app_assoc. reflexivity. }
        rewrite firstn_app in Q. replace (4 - length rest) with 0 in Q by lia.
        rewrite firstn_O, app_nil_r in Q. rewrite Q.
        rewrite firstn_app, HL, Nat.sub_diag, firstn_O, app_nil_r.
        apply firstn_all2. lia.
      - assert (Q : skipn 4 (rest ++ later) = skipn 4 (write_u32 (N.of_nat (length p)) ++ p ++ flat_map frame (map fst l))).
        { rewrite E. rewrite <- app_assoc. reflexivity. }
        rewrite skipn_app in Q. replace (4 - length rest) with 0 in Q by lia.
        rewrite skipn_O in Q. rewrite Q.
        rewrite skipn_app, HL, Nat.sub_diag, skipn_O.
        rewrite (skipn_all2 (write_u32 (N.of_nat (length p)))) by lia. reflexivity. }
    destruct R4 as (rest1 & R & E1).
    rewrite R. rewrite (decodes_u32 _ HS pre rest1 u b s). rewrite <- R.
    rewrite Nat2N.id. rewrite HL. cbn [r_it r_buf r_ub r_bad r_short].
    destruct (can_read (length p) (Rd (pre ++ rest) (length pre + 4) u b s)) eqn:CP; cbn [negb].
    2: { replace (length pre + 4 - 4) with (length pre) by lia. apply NoMsg.
         unfold can_read in CP. cbn [r_buf r_it] in CP.
         apply Nat.leb_gt in CP. rewrite app_length in CP. lia. }
    unfold can_read in CP. cbn [r_buf r_it] in CP. apply Nat.leb_le in CP. rewrite app_length in CP.
    rewrite R, app_length, HL in CP.
    assert (R1 : exists rest2, rest1 = p ++ rest2 /\ rest2 ++ later = flat_map frame (map fst l)).
    { exists (skipn (length p) rest1). split.
      - rewrite <- (firstn_skipn (length p) rest1) at 1. f_equal.
        assert (Q : firstn (length p) (rest1 ++ later) = firstn (length p) (p ++ flat_map frame (map fst l)))
          by (rewrite E1; reflexivity).
        rewrite firstn_app in Q. replace (length p - length rest1) with 0 in Q by lia.
        rewrite firstn_O, app_nil_r in Q. rewrite Q.
        rewrite firstn_app, Nat.sub_diag, firstn_O, app_nil_r. apply firstn_all.
      - assert (Q : skipn (length p) (rest1 ++ later) = skipn (length p) (p ++ flat_map frame (map fst l)))
          by (rewrite E1; reflexivity).
        rewrite skipn_app in Q. replace (length p - length rest1) with 0 in Q by lia.
        rewrite skipn_O in Q. rewrite Q.
        rewrite skipn_app, Nat.sub_diag, skipn_O, skipn_all. reflexivity. }
    destruct R1 as (rest2 & R1 & E2).
    assert (B : pre ++ rest = (pre ++ write_u32 (N.of_nat (length p))) ++ p ++ rest2)
      by (rewrite R, R1, <- app_assoc; reflexivity).
    rewrite B.
    specialize (HD (pre ++ write_u32 (N.of_nat (length p))) rest2 u b s).
    rewrite app_length, HL in HD. rewrite HD. cbn [r_it].
    rewrite Nat.eqb_refl. cbn [negb].
    destruct (IH fuel ((pre ++ write_u32 (N.of_nat (length p))) ++ p) rest2 later u b s)
      as (i & left & I1 & I2 & I3 & I4 & I5).
    { exact E2. }
    { rewrite R, R1, !app_length in F. lia. }
    replace (length ((pre ++ write_u32 (N.of_nat (length p))) ++ p)) with (length pre + 4 + length p) in I2
      by (rewrite !app_length, HL; lia).
    rewrite <- app_assoc in I2. rewrite I2.
    exists (S i), left. cbn [firstn skipn flat_map map fst snd].
    split; [cbn [length]; lia|].
    split.
    + f_equal. f_equal. cbn [stream flat_map]. rewrite (frame_le p HS), !app_length, HL.
      unfold stream. rewrite !Nat.add_assoc. reflexivity.
    + split; [|split; [exact I4|exact I5]].
      rewrite R, R1, I3. cbn [stream flat_map]. rewrite (frame_le p HS), <- !app_assoc. reflexivity.
Qed.

(** Between two calls: [i] messages were handled, the buffer holds what arrived of the
    next one. *)
Definition between (l : list (bytes * list A)) (i : nat) (buf : bytes) (k : list krecv) (later : bytes)
  : Prop :=
  i <= length l /\ alive k /\ buf ++ data k ++ later = stream (map fst (skipn i l)) /\
  (forall m r, skipn i l = m :: r -> length buf < length (frame (fst m))) /\
  (skipn i l = [] -> buf = []).

Lemma Forall_skipn {B} (P : B -> Prop) n : forall l, Forall P l -> Forall P (skipn n l).
Proof.
  induction n as [|n IH]; intros l H; [exact H|]. destruct H; [constructor|]. cbn [skipn]. apply IH. assumption.
Qed.
Lemma skipn_skipn' {B} a : forall b (l : list B), skipn a (skipn b l) = skipn (b + a) l.
Proof.
  intro b. induction b as [|b IH]; intro l; [reflexivity|].
  destruct l as [|x l]; [rewrite !skipn_nil; reflexivity|]. cbn [skipn Nat.add]. apply IH.
Qed.
Lemma firstn_add {B} a : forall b (l : list B), firstn (a + b) l = firstn a l ++ firstn b (skipn a l).
Proof.
  induction a as [|a IH]; intros b l; [reflexivity|].
  destruct l as [|x l]; [cbn; rewrite firstn_nil; reflexivity|]. cbn. rewrite IH. reflexivity.
Qed.
Lemma stream_app a b : stream (a ++ b) = stream a ++ stream b.
Proof. apply flat_map_app. Qed.

Lemma read_messages_spec l i buf k later : Forall good l -> between l i buf k later ->
  exists j r, j <= length l /\ i <= j /\ read_messages deserialize buf k = r /\ rr_ok r = Some true /\
    rr_handled r = flat_map snd (firstn (j - i) (skipn i l)) /\
    rr_ub r = false /\ rr_bad r = false /\
    between l j (rr_buf r) (rr_socket r) later /\
    (rr_socket r = [] \/ pauses (rr_socket r) < pauses k).
Proof.
  intros G (I & AL & E & N & Z).
  destruct (recv_all_spec buf k AL) as (got & k' & R & DT & AL' & P).
  unfold read_messages. rewrite R.
  destruct (messages_loop_spec (skipn i l) (Forall_skipn _ i l G) (S (length (buf ++ got))) []
              (buf ++ got) (data k' ++ later) false false false) as (n & left & L1 & L2 & L3 & L4 & L5).
  { rewrite <- E, DT. rewrite <- !app_assoc. reflexivity. }
  { lia. }
  cbn [length app Nat.add] in L2. rewrite L2.
  assert (LN : i + n <= length l).
  { destruct (le_lt_dec (i + n) (length l)) as [Q|Q]; [exact Q|].
    rewrite skipn_length in L1. lia. }
  exists (i + n). eexists. split; [exact LN|]. split; [lia|]. split; [reflexivity|].
  cbn [rr_ok rr_handled rr_ub rr_bad rr_buf rr_socket r_it r_ub r_bad].
  replace (i + n - i) with n by lia.
  split; [reflexivity|]. split; [reflexivity|]. split; [reflexivity|]. split; [reflexivity|].
  split; [|exact P].
  rewrite L3. rewrite skipn_app, Nat.sub_diag, skipn_all, skipn_O. cbn [app].
  split; [exact LN|]. split; [exact AL'|]. split.
  - apply (app_inv_head (stream (map fst (firstn n (skipn i l))))).
    rewrite app_assoc, <- L3, <- app_assoc.
    rewrite <- skipn_skipn', <- stream_app, <- map_app, firstn_skipn.
    rewrite <- E, DT, <- !app_assoc. reflexivity.
  - rewrite <- skipn_skipn'. split; [exact L4|exact L5].
Qed.

Lemma read_many_spec n : forall l i buf k later, Forall good l -> between l i buf k later ->
  exists j, j <= length l /\ i <= j /\
    let r := read_many deserialize n buf k in
    rr_ok r = Some true /\ rr_handled r = flat_map snd (firstn (j - i) (skipn i l)) /\
    rr_ub r = false /\ rr_bad r = false /\
    between l j (rr_buf r) (rr_socket r) later /\
    (pauses k < n -> rr_socket r = []).
Proof.
  induction n as [|n IH]; intros l i buf k later G B.
  - exists i. cbn [read_many]. cbn zeta. cbn [rr_ok rr_handled rr_ub rr_bad rr_buf rr_socket].
    replace (i - i) with 0 by lia. destruct B as (I & B'). repeat split; try (apply B'); try lia; auto.
  - destruct (read_messages_spec l i buf k later G B)
      as (j & r & J1 & J2 & R & OK & HD & U & BD & B2 & P).
    cbn [read_many]. rewrite R, OK.
    destruct (IH l j (rr_buf r) (rr_socket r) later G B2) as (j2 & K1 & K2 & K).
    cbn zeta in K. destruct K as (OK2 & HD2 & U2 & BD2 & B3 & P2).
    exists j2. split; [exact K1|]. split; [lia|]. cbn zeta.
    cbn [rr_ok rr_handled rr_ub rr_bad rr_buf rr_socket].
    split; [exact OK2|]. split.
    { rewrite HD, HD2, <- flat_map_app. f_equal.
      replace (j2 - i) with ((j - i) + (j2 - j)) by lia. rewrite firstn_add.
      rewrite skipn_skipn'. replace (i + (j - i)) with j by lia. reflexivity. }
    rewrite U, U2, BD, BD2. split; [reflexivity|]. split; [reflexivity|]. split; [exact B3|].
    intro L. destruct P as [P|P].
    + clear - P. rewrite P. clear P.
      assert (Q : forall m b, rr_socket (read_many deserialize m b []) = []).
      { induction m as [|m IHm]; intro b; [reflexivity|]. cbn [read_many].
        assert (S : rr_socket (read_messages deserialize b []) = []).
        { unfold read_messages, recv_all. cbn [pending_bytes fold_right recv_loop].
          rewrite Nat.eqb_refl. replace (length b + 1024 - length b) with 1024 by lia.
          cbn [recv_some].
          destruct (messages_loop deserialize (S (length b)) (Rd b 0 false false false)) as [[x y] z].
          reflexivity. }
        destruct (rr_ok (read_messages deserialize b [])) as [[|]|]; cbn [rr_socket];
          [rewrite S; apply IHm|exact S|exact S]. }
      apply Q.
    + apply P2. lia.
Qed.

(** Calling on an empty buffer at the start. *)
Theorem received n l k later : Forall good l -> alive k -> data k ++ later = stream (map fst l) ->
  exists i, i <= length l /\
    let r := read_many deserialize n [] k in
    rr_ok r = Some true /\ rr_ub r = false /\ rr_bad r = false /\
    rr_handled r = flat_map snd (firstn i l) /\
    stream (map fst (firstn i l)) ++ rr_buf r ++ data (rr_socket r) = data k /\
    (forall m r', skipn i l = m :: r' -> length (rr_buf r) < length (frame (fst m))) /\
    (pauses k < n -> rr_socket r = []).
Proof.
  intros G AL E.
  destruct (read_many_spec n l 0 [] k later G) as (i & I1 & _ & R).
  { split; [lia|]. split; [exact AL|]. split; [exact E|]. split; [|reflexivity].
    intros m r _. unfold frame. rewrite app_length. cbn [length length_bytes]. lia. }
  exists i. split; [exact I1|]. cbn zeta in *. destruct R as (OK & HD & U & BD & B & P).
  rewrite Nat.sub_0_r in HD. cbn [skipn] in HD.
  split; [exact OK|]. split; [exact U|]. split; [exact BD|]. split; [exact HD|].
  destruct B as (_ & _ & EQ & N & Z). split; [|split; [exact N|exact P]].
  apply (app_inv_tail later). rewrite E, <- !app_assoc, EQ, <- stream_app, <- map_app, firstn_skipn.
  reflexivity.
Qed.

(** Everything has arrived and the reader was called after each pause. *)
Theorem received_all n l k : Forall good l -> alive k -> data k = stream (map fst l) ->
  pauses k < n ->
  rr_ok (read_many deserialize n [] k) = Some true /\
  rr_ub (read_many deserialize n [] k) = false /\
  rr_handled (read_many deserialize n [] k) = flat_map snd l.
Proof.
  intros G AL E L.
  destruct (received n l k [] G AL) as (i & I & R); [rewrite app_nil_r; exact E|].
  cbn zeta in R. destruct R as (OK & U & _ & HD & EQ & N & P).
  split; [exact OK|]. split; [exact U|]. rewrite HD. f_equal.
  rewrite (P L) in EQ. cbn [data] in EQ. rewrite app_nil_r in EQ.
  destruct (skipn i l) as [|m r] eqn:S.
  - rewrite <- (firstn_skipn i l) at 2. rewrite S, app_nil_r. reflexivity.
  - exfalso. specialize (N _ _ eq_refl).
    rewrite E in EQ. rewrite <- (firstn_skipn i l) in EQ at 2. rewrite S, map_app, stream_app in EQ.
    apply app_inv_head in EQ. rewrite EQ in N. cbn [map stream flat_map] in N.
    rewrite app_length in N. lia.
Qed.
End Messages.

Lemma nth_skipn {B} (l : list B) : forall i m, nth_error l i = Some m -> exists r, skipn i l = m :: r.
Proof.
  induction l as [|x l IH]; intros [|i] m H; try discriminate.
  - inversion H; subst. exists l. reflexivity.
  - exact (IH i m H).
Qed.

Lemma arrives {M A} (write : M -> bytes) (read : rd (list A)) (fit : M -> Prop) means :
  (forall m, fit m -> decodes read (write m) (means m)) -> arrive write read fit means.
Proof.
  intros D ms sends res sent k later n F S AL E.
  assert (SH : Forall short (map write ms)).
  { rewrite Forall_map. eapply Forall_impl; [|exact F]. intros m H. apply H. }
  destruct (send_messages_spec _ SH _ _ _ S) as (rest & ST & T).
  set (l := map (fun m => (write m, means m)) ms).
  assert (FL : map fst l = map write ms) by (unfold l; rewrite map_map; reflexivity).
  assert (G : Forall (good read) l).
  { unfold l. rewrite Forall_map. eapply Forall_impl; [|exact F]. intros m [H1 H2].
    split; [exact H2|]. apply D. exact H1. }
  destruct (received read n l k (later ++ rest) G AL) as (i & I & R).
  { rewrite app_assoc, E, FL. symmetry. exact ST. }
  cbn zeta in R. destruct R as (OK & U & BD & HD & EQ & N & P).
  assert (LL : length l = length ms) by (unfold l; apply map_length).
  exists i. rewrite <- LL at 1. split; [exact I|]. cbn zeta.
  split; [exact OK|]. split; [exact U|]. split; [exact BD|].
  split.
  { rewrite HD. unfold l. rewrite firstn_map, flat_map_concat_map, map_map, flat_map_concat_map.
    reflexivity. }
  assert (FI : map fst (firstn i l) = map write (firstn i ms)).
  { rewrite <- !firstn_map, FL. reflexivity. }
  split; [rewrite <- FI; exact EQ|].
  split.
  { intros m H. destruct (nth_skipn l i (write m, means m)) as (r' & Q).
    - unfold l. rewrite nth_error_map, H. reflexivity.
    - exact (N _ _ Q). }
  intro L. specialize (P L). split; [exact P|]. intros RT LT. specialize (T RT). subst rest later.
  rewrite app_nil_r in *. rewrite P in EQ. cbn [data] in EQ. rewrite app_nil_r in EQ.
  destruct (skipn i l) as [|m r] eqn:SK.
  - assert (Q : length (skipn i l) = 0) by (rewrite SK; reflexivity). rewrite skipn_length in Q. lia.
  - exfalso. specialize (N _ _ eq_refl).
    rewrite E, <- ST, <- FL in EQ. rewrite <- (firstn_skipn i l) in EQ at 2.
    rewrite SK, map_app, stream_app in EQ. apply app_inv_head in EQ. rewrite EQ in N.
    cbn [map stream flat_map] in N. rewrite app_length in N. lia.
Qed.
