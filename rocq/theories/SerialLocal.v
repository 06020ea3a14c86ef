(** Proofs about arbitrary bytes: reading stays inside of the buffer, and what is accepted
    consists of messages. *)
From Coq Require Import String Ascii List Arith NArith ZArith Bool Lia.
From Verif Require Import Base Key Text Match Stage Config MultiStage Serial SerialSpec
  SerialProofs SerialStream.
Import ListNotations.
Local Open Scope nat_scope.

(** * Reading stays inside of the buffer *)

Definition within (d : reader) : Prop := r_it d <= length (r_buf d).
Definition inside {A} (f : rd A) : Prop :=
  forall d a d', f d = (a, d') -> within d ->
    r_buf d' = r_buf d /\ r_it d <= r_it d' /\ within d' /\ r_ub d' = r_ub d.

Lemma inside_ret {A} (a : A) : inside (rret a).
Proof. intros d x d' H W. inversion H; subst. auto. Qed.
Lemma inside_bind {A B} (m : rd A) (f : A -> rd B) :
  inside m -> (forall a, inside (f a)) -> inside (rbind m f).
Proof.
  intros M F d x d' H W. unfold rbind in H. destruct (m d) as [a d1] eqn:E.
  destruct (M _ _ _ E W) as (B1 & L1 & W1 & U1).
  destruct (F a _ _ _ H W1) as (B2 & L2 & W2 & U2).
  split; [congruence|]. split; [lia|]. split; [exact W2|congruence].
Qed.
Lemma inside_raw n init : inside (read_raw n init).
Proof.
  intros d x d' H W. unfold read_raw in H.
  destruct (negb (Nat.eqb n 0) && can_read n d) eqn:C.
  - apply andb_true_iff in C. destruct C as [_ C]. unfold can_read in C. apply Nat.leb_le in C.
    injection H as <- <-. unfold within. cbn [r_buf r_it r_ub].
    split; [reflexivity|]. split; [lia|]. split; [exact C|].
    destruct (Nat.ltb_spec (length (r_buf d)) (r_it d + n)); [lia|]. apply orb_false_r.
  - injection H as <- <-. unfold within in *. cbn [r_buf r_it r_ub]. auto.
Qed.
Lemma inside_set_bad : inside set_bad.
Proof. intros d x d' H W. injection H as <- <-. unfold within in *. cbn. auto. Qed.
Lemma inside_times {A} n (f : rd A) : inside f -> inside (read_times n f).
Proof.
  intro F. induction n as [|n IH]; [apply inside_ret|]. cbn [read_times].
  apply inside_bind; [exact F|]. intro a. apply inside_bind; [exact IH|]. intro. apply inside_ret.
Qed.

Ltac insides :=
  repeat match goal with
  | |- inside (rbind _ _) => apply inside_bind; [|intro]
  | |- inside (rret _) => apply inside_ret
  | |- inside (read_raw _ _) => apply inside_raw
  | |- inside (read_times _ _) => apply inside_times
  | |- inside set_bad => apply inside_set_bad
  | |- inside (if ?b then _ else _) => destruct b
  | |- inside (match ?b with _ => _ end) => destruct b
  end.

Lemma inside_uint n : inside (read_uint n).
Proof. unfold read_uint. insides. Qed.
Lemma inside_i32 : inside read_i32.
Proof. unfold read_i32, read_uint. insides. Qed.
Lemma inside_bool : inside read_bool.
Proof. unfold read_bool, read_uint. insides. Qed.
Lemma inside_string : inside read_string.
Proof. unfold read_string, read_u32, read_uint. insides. Qed.
Lemma inside_list {A} (f : rd A) : inside f -> inside (read_list f).
Proof. intro F. unfold read_list, read_u32, read_uint. insides. exact F. Qed.
Lemma inside_seq : inside read_key_sequence.
Proof. apply inside_list. unfold read_event. insides. Qed.
Lemma inside_filter : inside read_filter.
Proof. unfold read_filter. insides; [apply inside_string|apply inside_bool]. Qed.
Lemma inside_indexed : inside read_indexed.
Proof. unfold read_indexed. insides; [apply inside_seq|apply inside_i32]. Qed.
Lemma inside_context : inside read_context.
Proof.
  unfold read_context. insides;
    first [apply inside_seq|apply inside_bool|apply inside_filter
          |apply inside_list; first [apply inside_seq|apply inside_indexed]].
Qed.
Lemma inside_stages n : forall st cur, inside (stages_loop n st cur).
Proof.
  induction n as [|n IH]; intros st cur; cbn [stages_loop]; [insides|].
  apply inside_bind; [apply inside_bool|]. intro b.
  apply inside_bind; [apply inside_context|]. intro c.
  destruct b; [destruct cur|]; apply IH.
Qed.
Lemma inside_smsg : inside read_smsg.
Proof.
  unfold read_smsg, read_stages, read_u32. insides;
    first [apply inside_uint|apply inside_stages|apply inside_seq
          |apply inside_list; first [apply inside_string|apply inside_i32
            |unfold read_grab_filter; insides; first [apply inside_filter|apply inside_bool]]].
Qed.
Lemma inside_cmsg : inside read_cmsg.
Proof.
  unfold read_cmsg. insides; first [apply inside_uint|apply inside_i32|apply inside_string].
Qed.
Lemma inside_rmsg : inside read_rmsg.
Proof. unfold read_rmsg. insides; first [apply inside_uint|apply inside_string]. Qed.
Lemma inside_answer : inside read_answer.
Proof. unfold read_answer. insides; apply inside_uint. Qed.
Lemma inside_key_info : inside read_key_info.
Proof. unfold read_key_info. insides; first [apply inside_uint|apply inside_string]. Qed.

Lemma messages_inside {A} (f : rd (list A)) : inside f ->
  forall fuel d res l d', messages_loop f fuel d = (res, l, d') -> within d ->
    r_buf d' = r_buf d /\ within d' /\ r_ub d' = r_ub d.
Proof.
  intros F fuel. induction fuel as [|fuel IH]; intros d res l d' H W.
  - inversion H; subst. auto.
  - cbn [messages_loop] in H. destruct (can_read 4 d) eqn:C4; [|inversion H; subst; auto].
    destruct (read_u32 d) as [n d1] eqn:E.
    destruct (inside_uint 4 _ _ _ E W) as (B1 & L1 & W1 & U1).
    destruct (can_read (N.to_nat n) d1); cbn [negb] in H.
    + destruct (f d1) as [a d2] eqn:E2.
      destruct (F _ _ _ E2 W1) as (B2 & L2 & W2 & U2).
      destruct (negb (Nat.eqb (r_it d2) (r_it d1 + N.to_nat n))).
      * inversion H; subst. split; [congruence|]. split; [exact W2|congruence].
      * destruct (messages_loop f fuel d2) as [[r2 l2] d3] eqn:E3. inversion H; subst.
        destruct (IH _ _ _ _ E3 W2) as (B3 & W3 & U3).
        split; [congruence|]. split; [exact W3|congruence].
    + inversion H; subst. unfold within in *. cbn [r_buf r_it r_ub].
      split; [congruence|]. split; [lia|congruence].
Qed.

Lemma read_messages_inside {A} (f : rd (list A)) buf k : inside f ->
  rr_ub (read_messages f buf k) = false.
Proof.
  intro F. unfold read_messages. destruct (recv_all buf k) as [[b| |] k']; try reflexivity.
  destruct (messages_loop f (S (length b)) (Rd b 0 false false false)) as [[res l] d] eqn:E.
  destruct (messages_inside f F _ _ _ _ _ E) as (_ & _ & U).
  - unfold within. cbn. lia.
  - exact U.
Qed.

Lemma read_many_inside {A} (f : rd (list A)) : inside f ->
  forall n buf k, rr_ub (read_many f n buf k) = false.
Proof.
  intros F n. induction n as [|n IH]; intros buf k; [reflexivity|]. cbn [read_many].
  destruct (rr_ok (read_messages f buf k)) as [[|]|]; cbn [rr_ub];
    rewrite ?read_messages_inside, ?IH by exact F; reflexivity.
Qed.

(** * Fuel suffices *)

Lemma messages_fuel {A} (f : rd (list A)) : inside f ->
  forall fuel d res l d', messages_loop f fuel d = (res, l, d') -> within d ->
    length (r_buf d) - r_it d < fuel -> res <> None.
Proof.
  intros F fuel. induction fuel as [|fuel IH]; intros d res l d' H W L; [lia|].
  cbn [messages_loop] in H. destruct (can_read 4 d) eqn:C4; [|inversion H; subst; discriminate].
  destruct (read_u32 d) as [n d1] eqn:E.
  destruct (inside_uint 4 _ _ _ E W) as (B1 & L1 & W1 & U1).
  assert (I1 : r_it d1 = r_it d + 4).
  { unfold read_u32, read_uint, rbind, read_raw in E. cbn [Nat.eqb negb andb] in E. rewrite C4 in E.
    injection E as <- <-. reflexivity. }
  destruct (can_read (N.to_nat n) d1); cbn [negb] in H; [|inversion H; subst; discriminate].
  destruct (f d1) as [a d2] eqn:E2.
  destruct (F _ _ _ E2 W1) as (B2 & L2 & W2 & U2).
  destruct (negb (Nat.eqb (r_it d2) (r_it d1 + N.to_nat n))); [inversion H; subst; discriminate|].
  destruct (messages_loop f fuel d2) as [[r2 l2] d3] eqn:E3. inversion H; subst.
  apply (IH _ _ _ _ E3 W2). rewrite B2, B1. unfold within in *. rewrite B1 in *.
  unfold can_read in C4. apply Nat.leb_le in C4. lia.
Qed.

Lemma recv_some_length k : forall len b k', recv_some len k = (Some b, k') ->
  length b <= len /\ length b + length (data k') <= length (data k).
Proof.
  induction k as [|x k IH]; intros len b k' E.
  - destruct len; cbn in E; inversion E; subst; cbn; lia.
  - destruct len as [|len]; [cbn in E; inversion E; subst; cbn [length]; lia|].
    destruct x as [b0| | | |]; cbn [recv_some] in E.
    + destruct (Nat.leb_spec (length b0) (S len)).
      * destruct (recv_some (S len - length b0) k) as [[o|] q] eqn:Q; cbn in E; inversion E; subst.
        destruct (IH _ _ _ Q). cbn [data]. rewrite !app_length. lia.
      * assert (Q1 : b = firstn (S len) b0) by congruence.
        assert (Q2 : k' = KData (skipn (S len) b0) :: k) by congruence.
        subst b k'. cbn [data]. rewrite !app_length, firstn_length, skipn_length. lia.
    + inversion E; subst. cbn [data length]. lia.
    + destruct (IH _ _ _ E). cbn [data]. lia.
    + discriminate.
    + discriminate.
Qed.

Lemma recv_fuel fuel : forall d cap k, length d <= cap -> length (data k) < fuel ->
  fst (recv_loop fuel d cap k) <> RecvFuel.
Proof.
  induction fuel as [|fuel IH]; intros d cap k C L; [lia|]. cbn [recv_loop].
  set (cap' := if Nat.eqb (length d) cap then cap + 1024 else cap).
  assert (C' : length d < cap')
    by (unfold cap'; destruct (Nat.eqb_spec (length d) cap); lia).
  destruct (recv_some (cap' - length d) k) as [[[|c b]|] k'] eqn:E; try discriminate.
  destruct (recv_some_length _ _ _ _ E) as [L1 L2].
  apply IH; [rewrite app_length; lia|]. cbn [length] in L2. lia.
Qed.

Lemma read_messages_fuel {A} (f : rd (list A)) buf k : inside f ->
  rr_ok (read_messages f buf k) <> None.
Proof.
  intro F. unfold read_messages.
  pose proof (recv_fuel (S (pending_bytes k)) buf (length buf) k (Nat.le_refl _)) as R.
  rewrite pending_data in R. specialize (R (Nat.lt_succ_diag_r _)). unfold recv_all.
  rewrite pending_data.
  destruct (recv_loop (S (length (data k))) buf (length buf) k) as [[b| |] k']; cbn [fst] in R;
    [|discriminate|congruence].
  destruct (messages_loop f (S (length b)) (Rd b 0 false false false)) as [[res l] d] eqn:E.
  cbn [rr_ok]. apply (messages_fuel f F _ _ _ _ _ E).
  - unfold within. cbn. lia.
  - cbn. lia.
Qed.

(** * What is read depends on the bytes read only *)

(** If no read was refused, the bytes from the old to the new position are taken for the
    same, wherever they stand. *)
Definition local {A} (f : rd A) : Prop :=
  forall d a d', f d = (a, d') -> within d -> r_short d' = false ->
    r_short d = false /\
    exists pre p post delta,
      r_buf d = pre ++ p ++ post /\ length pre = r_it d /\ r_it d' = r_it d + length p /\
      r_bad d' = r_bad d || delta /\
      forall pre' post' u b s,
        f (Rd (pre' ++ p ++ post') (length pre') u b s) =
        (a, Rd (pre' ++ p ++ post') (length pre' + length p) u (b || delta) s).

Lemma within_split d : within d ->
  exists pre post, r_buf d = pre ++ post /\ length pre = r_it d.
Proof.
  intro W. exists (firstn (r_it d) (r_buf d)), (skipn (r_it d) (r_buf d)).
  split; [symmetry; apply firstn_skipn|]. rewrite firstn_length. unfold within in W. lia.
Qed.

Lemma local_ret {A} (a : A) : local (rret a).
Proof.
  intros d x d' H W S. inversion H; subst. split; [exact S|].
  destruct (within_split d' W) as (pre & post & B & L).
  exists pre, [], post, false. cbn [app length]. rewrite Nat.add_0_r, orb_false_r.
  repeat split; try assumption. intros. rewrite Nat.add_0_r, orb_false_r. reflexivity.
Qed.

Lemma local_set_bad : local set_bad.
Proof.
  intros d x d' H W S. injection H as <- <-. cbn [r_short] in S. split; [exact S|].
  destruct (within_split d W) as (pre & post & B & L).
  exists pre, [], post, true. cbn [app length r_it r_bad]. rewrite Nat.add_0_r, orb_true_r.
  repeat split; try assumption. intros. unfold set_bad. cbn [r_buf r_it r_ub r_bad r_short].
  rewrite Nat.add_0_r, orb_true_r. reflexivity.
Qed.

Lemma local_raw n init : local (read_raw n init).
Proof.
  intros d x d' H W S.
  destruct (Nat.eq_dec n 0) as [Z|Z].
  - subst n. unfold read_raw in H. cbn [Nat.eqb negb andb] in H. injection H as <- <-.
    cbn [r_short] in S. rewrite orb_false_r in S. split; [exact S|].
    destruct (within_split d W) as (pre & post & B & L).
    exists pre, [], post, false. cbn [app length r_it r_bad]. rewrite Nat.add_0_r, orb_false_r.
    repeat split; try assumption. intros. unfold read_raw. cbn [Nat.eqb negb andb r_buf r_it r_ub r_bad r_short].
    rewrite Nat.add_0_r, !orb_false_r. reflexivity.
  - pose proof H as H0. unfold read_raw in H.
    destruct (Nat.eqb_spec n 0) as [|_]; [contradiction|]. cbn [negb andb] in H.
    destruct (can_read n d) eqn:C.
    2: { injection H as <- <-. cbn [r_short] in S. rewrite orb_true_r in S. discriminate. }
    unfold can_read in C. apply Nat.leb_le in C.
    injection H as <- <-. cbn [r_short r_it r_bad r_buf] in *.
    split; [exact S|].
    set (p := firstn n (skipn (r_it d) (r_buf d))).
    assert (LP : length p = n).
    { unfold p. rewrite firstn_length, skipn_length. lia. }
    exists (firstn (r_it d) (r_buf d)), p, (skipn n (skipn (r_it d) (r_buf d))), false.
    split; [unfold p; rewrite !firstn_skipn; reflexivity|].
    split; [rewrite firstn_length; unfold within in W; lia|].
    split; [rewrite LP; reflexivity|]. split; [rewrite orb_false_r; reflexivity|].
    intros. rewrite <- LP. rewrite orb_false_r. apply decodes_raw.
    intro E. rewrite E in LP. cbn in LP. congruence.
Qed.

Lemma local_bind {A B} (m : rd A) (f : A -> rd B) : inside m ->
  local m -> (forall a, local (f a)) -> local (rbind m f).
Proof.
  intros IM M F d x d' H W S. unfold rbind in H. destruct (m d) as [a d1] eqn:E.
  destruct (IM _ _ _ E W) as (B1 & L1 & W1 & U1).
  destruct (F a _ _ _ H W1 S) as (S1 & pre2 & p2 & post2 & dl2 & E2 & P2 & I2 & BD2 & G2).
  destruct (M _ _ _ E W S1) as (S0 & pre1 & p1 & post1 & dl1 & E1 & P1 & I1 & BD1 & G1).
  split; [exact S0|].
  assert (Q : pre2 = pre1 ++ p1 /\ post1 = p2 ++ post2).
  { rewrite B1, E1 in E2. rewrite app_assoc in E2.
    assert (Len : length (pre1 ++ p1) = length pre2) by (rewrite app_length; lia).
    clear - E2 Len. revert pre2 E2 Len. generalize (pre1 ++ p1) as q.
    induction q as [|c q IH]; intros [|c2 pre2] E Len; cbn in Len; try discriminate; cbn in E.
    - auto.
    - injection E as -> E. injection Len as Len. destruct (IH pre2 E Len) as [-> ->]. auto. }
  destruct Q as [Q1 Q2].
  exists pre1, (p1 ++ p2), post2, (dl1 || dl2).
  split; [rewrite E1, Q2, <- app_assoc; reflexivity|].
  split; [exact P1|]. split; [rewrite app_length; lia|].
  split; [rewrite BD2, BD1, orb_assoc; reflexivity|].
  intros pre' post' u b s. unfold rbind. rewrite <- app_assoc.
  rewrite (G1 pre' (p2 ++ post') u b s).
  specialize (G2 (pre' ++ p1) post' u (b || dl1) s). rewrite <- app_assoc in G2.
  rewrite app_length in G2. rewrite G2. rewrite app_length, orb_assoc, Nat.add_assoc. reflexivity.
Qed.

Lemma local_times {A} n (f : rd A) : inside f -> local f -> local (read_times n f).
Proof.
  intros I F. induction n as [|n IH]; [apply local_ret|]. cbn [read_times].
  apply local_bind; [exact I|exact F|]. intro a.
  apply local_bind; [apply inside_times; exact I|exact IH|]. intro. apply local_ret.
Qed.

Ltac insider :=
  first [apply inside_uint|apply inside_i32|apply inside_bool|apply inside_string|apply inside_seq
        |apply inside_filter|apply inside_indexed|apply inside_context|apply inside_stages
        |apply inside_raw|apply inside_set_bad|apply inside_ret].

Lemma local_uint n : local (read_uint n).
Proof.
  unfold read_uint. apply local_bind; [insider|apply local_raw|intro; apply local_ret].
Qed.
Lemma local_i32 : local read_i32.
Proof. unfold read_i32. apply local_bind; [insider|apply local_uint|intro; apply local_ret]. Qed.
Lemma local_bool : local read_bool.
Proof.
  unfold read_bool. apply local_bind; [insider|apply local_uint|intro n].
  apply local_bind; [destruct (1 <? n)%N; insider| |intro; apply local_ret].
  destruct (1 <? n)%N; [apply local_set_bad|apply local_ret].
Qed.
Lemma local_string : local read_string.
Proof.
  unfold read_string. apply local_bind; [insider|apply local_uint|]. intro n.
  apply local_raw.
Qed.
Lemma local_list {A} (f : rd A) : inside f -> local f -> local (read_list f).
Proof.
  intros I F. unfold read_list. apply local_bind; [insider|apply local_uint|]. intro n.
  apply local_times; assumption.
Qed.
Lemma inside_event : inside read_event.
Proof. unfold read_event. insides. Qed.
Lemma local_seq : local read_key_sequence.
Proof.
  apply local_list; [apply inside_event|]. unfold read_event.
  apply local_bind; [insider|apply local_raw|intro; apply local_ret].
Qed.
Lemma local_filter : local read_filter.
Proof.
  unfold read_filter. apply local_bind; [insider|apply local_string|intro].
  apply local_bind; [insider|apply local_bool|intro; apply local_ret].
Qed.
Lemma local_indexed : local read_indexed.
Proof.
  unfold read_indexed. apply local_bind; [insider|apply local_seq|intro].
  apply local_bind; [insider|apply local_i32|intro; apply local_ret].
Qed.
Lemma local_context : local read_context.
Proof.
  unfold read_context.
  apply local_bind; [apply inside_list; insider|apply local_list; [insider|apply local_indexed]|intro].
  apply local_bind; [apply inside_list; insider|apply local_list; [insider|apply local_seq]|intro].
  apply local_bind; [apply inside_list; insider|apply local_list; [insider|apply local_indexed]|intro].
  apply local_bind; [insider|apply local_filter|intro].
  apply local_bind; [insider|apply local_filter|intro].
  apply local_bind; [insider|apply local_seq|intro].
  apply local_bind; [insider|apply local_bool|intro].
  apply local_bind; [insider|apply local_bool|intro]. apply local_ret.
Qed.
Lemma local_stages n : forall st cur, local (stages_loop n st cur).
Proof.
  induction n as [|n IH]; intros st cur; cbn [stages_loop].
  - destruct cur; apply local_ret.
  - apply local_bind; [insider|apply local_bool|]. intro b.
    apply local_bind; [insider|apply local_context|]. intro c.
    destruct b; [destruct cur|]; apply IH.
Qed.
Lemma inside_grab : inside read_grab_filter.
Proof. unfold read_grab_filter. insides; insider. Qed.
Lemma local_grab : local read_grab_filter.
Proof.
  unfold read_grab_filter. apply local_bind; [insider|apply local_filter|intro].
  apply local_bind; [insider|apply local_bool|intro; apply local_ret].
Qed.

Lemma local_smsg : local read_smsg.
Proof.
  unfold read_smsg, read_stages. apply local_bind; [insider|apply local_uint|]. intro t.
  destruct (t =? t_configuration)%N.
  { apply local_bind; [apply inside_list, inside_grab|apply local_list; [apply inside_grab|apply local_grab]|intro].
    apply local_bind; [insides; insider| |intro].
    - apply local_bind; [insider|apply local_uint|intro; apply local_stages].
    - apply local_bind; [apply inside_list; insider|apply local_list; [insider|apply local_string]|].
      intro. apply local_ret. }
  destruct (t =? t_active_contexts)%N.
  { apply local_bind; [apply inside_list; insider|apply local_list; [insider|apply local_i32]|].
    intro. apply local_ret. }
  destruct (t =? t_set_virtual_key_state)%N.
  { apply local_bind; [insider|apply local_uint|intro].
    apply local_bind; [insider|apply local_uint|intro; apply local_ret]. }
  destruct (t =? t_validate_state)%N; [apply local_ret|].
  destruct (t =? t_next_key_info)%N; [apply local_ret|].
  destruct (t =? t_inject_input)%N.
  { apply local_bind; [insider|apply local_seq|intro; apply local_ret]. }
  destruct (t =? t_inject_output)%N.
  { apply local_bind; [insider|apply local_seq|intro; apply local_ret]. }
  apply local_ret.
Qed.
Lemma local_cmsg : local read_cmsg.
Proof.
  unfold read_cmsg. apply local_bind; [insider|apply local_uint|]. intro t.
  destruct (t =? t_execute_action)%N.
  { apply local_bind; [insider|apply local_i32|intro; apply local_ret]. }
  destruct (t =? t_virtual_key_state)%N.
  { apply local_bind; [insider|apply local_uint|intro].
    apply local_bind; [insider|apply local_uint|intro; apply local_ret]. }
  destruct (t =? t_next_key_info)%N; [|apply local_ret].
  apply local_bind; [insider|apply local_uint|intro].
  apply local_bind; [insider|apply local_string|intro].
  apply local_bind; [insider|apply local_string|intro; apply local_ret].
Qed.
Lemma local_rmsg : local read_rmsg.
Proof.
  unfold read_rmsg. apply local_bind; [insider|apply local_uint|]. intro t.
  destruct (t =? t_get_virtual_key_state)%N.
  { apply local_bind; [insider|apply local_string|intro; apply local_ret]. }
  destruct (t =? t_set_virtual_key_state)%N.
  { apply local_bind; [insider|apply local_string|intro].
    apply local_bind; [insider|apply local_uint|intro; apply local_ret]. }
  destruct (t =? t_request_toggle_notification)%N.
  { apply local_bind; [insider|apply local_string|intro; apply local_ret]. }
  destruct (t =? t_set_instance_id)%N.
  { apply local_bind; [insider|apply local_string|intro; apply local_ret]. }
  destruct (t =? t_set_config_file)%N.
  { apply local_bind; [insider|apply local_string|intro; apply local_ret]. }
  destruct (t =? t_next_key_info)%N; [apply local_ret|].
  destruct (t =? t_inject_input)%N.
  { apply local_bind; [insider|apply local_string|intro; apply local_ret]. }
  destruct (t =? t_inject_output)%N; [|apply local_ret].
  apply local_bind; [insider|apply local_string|intro; apply local_ret].
Qed.

(** * What is accepted *)

Lemma of_le_bound b : (of_le b < 256 ^ N.of_nat (length b))%N.
Proof.
  induction b as [|c b IH]; [reflexivity|]. cbn [of_le length].
  rewrite Nat2N.inj_succ, N.pow_succ_r'.
  pose proof (N_ascii_bounded c). lia.
Qed.
Lemma le_of_le b : le (length b) (of_le b) = b.
Proof.
  induction b as [|c b IH]; [reflexivity|]. cbn [of_le length le].
  pose proof (N_ascii_bounded c) as L.
  replace ((N_of_ascii c + 256 * of_le b) mod 256)%N with (N_of_ascii c).
  - replace ((N_of_ascii c + 256 * of_le b) / 256)%N with (of_le b).
    + rewrite IH, ascii_N_embedding. reflexivity.
    + rewrite N.mul_comm, N.div_add by discriminate. rewrite N.div_small by exact L. reflexivity.
  - rewrite N.mul_comm, N.mod_add by discriminate. symmetry. apply N.mod_small. exact L.
Qed.

Lemma short_mono {A} (f : rd (list A)) : inside f -> local f ->
  forall fuel d res l d', messages_loop f fuel d = (res, l, d') -> within d ->
    r_short d' = false -> r_short d = false.
Proof.
  intros I L fuel. induction fuel as [|fuel IH]; intros d res l d' H W S.
  - inversion H; subst. exact S.
  - cbn [messages_loop] in H. destruct (can_read 4 d) eqn:C4; [|inversion H; subst; exact S].
    destruct (read_u32 d) as [n d1] eqn:E.
    destruct (inside_uint 4 _ _ _ E W) as (B1 & L1 & W1 & U1).
    assert (Q : r_short d1 = false -> r_short d = false).
    { intro Q. apply (local_uint 4 _ _ _ E W Q). }
    destruct (can_read (N.to_nat n) d1); cbn [negb] in H; [|inversion H; subst; apply Q; exact S].
    destruct (f d1) as [a d2] eqn:E2.
    destruct (I _ _ _ E2 W1) as (B2 & L2 & W2 & U2).
    assert (Q2 : r_short d2 = false -> r_short d = false).
    { intro Q2. apply Q. apply (L _ _ _ E2 W1 Q2). }
    destruct (negb (Nat.eqb (r_it d2) (r_it d1 + N.to_nat n))); [inversion H; subst; apply Q2; exact S|].
    destruct (messages_loop f fuel d2) as [[r2 l2] d3] eqn:E3. inversion H; subst.
    apply Q2. exact (IH _ _ _ _ E3 W2 S).
Qed.
Lemma bad_mono {A} (f : rd (list A)) : inside f -> local f ->
  forall fuel d res l d', messages_loop f fuel d = (res, l, d') -> within d ->
    r_short d' = false -> r_bad d' = false -> r_bad d = false.
Proof.
  intros I L fuel. induction fuel as [|fuel IH]; intros d res l d' H W S B.
  - inversion H; subst. exact B.
  - cbn [messages_loop] in H. destruct (can_read 4 d) eqn:C4; [|inversion H; subst; exact B].
    destruct (read_u32 d) as [n d1] eqn:E.
    destruct (inside_uint 4 _ _ _ E W) as (B1 & L1 & W1 & U1).
    assert (Q : r_short d1 = false -> r_bad d1 = false -> r_bad d = false).
    { intros Q X. destruct (local_uint 4 _ _ _ E W Q) as (_ & ? & ? & ? & dl & _ & _ & _ & Y & _).
      rewrite Y in X. apply orb_false_iff in X. apply X. }
    destruct (can_read (N.to_nat n) d1); cbn [negb] in H; [|inversion H; subst; apply Q; assumption].
    destruct (f d1) as [a d2] eqn:E2.
    destruct (I _ _ _ E2 W1) as (B2 & L2 & W2 & U2).
    assert (Q2 : r_short d2 = false -> r_bad d2 = false -> r_bad d = false).
    { intros Q2 X. destruct (L _ _ _ E2 W1 Q2) as (Z & ? & ? & ? & dl & _ & _ & _ & Y & _).
      rewrite Y in X. apply orb_false_iff in X. apply Q; [exact Z|apply X]. }
    destruct (negb (Nat.eqb (r_it d2) (r_it d1 + N.to_nat n))); [inversion H; subst; apply Q2; assumption|].
    destruct (messages_loop f fuel d2) as [[r2 l2] d3] eqn:E3. inversion H; subst.
    apply Q2; [exact (short_mono f I L _ _ _ _ _ E3 W2 S)|exact (IH _ _ _ _ E3 W2 S B)].
Qed.

Lemma accepted_messages {A} (f : rd (list A)) : inside f -> local f ->
  forall fuel d l d', messages_loop f fuel d = (Some true, l, d') -> within d ->
    r_short d' = false -> r_bad d' = false ->
    exists ms, Forall (good f) ms /\ l = flat_map snd ms /\
      skipn (r_it d) (r_buf d) = stream (map fst ms) ++ skipn (r_it d') (r_buf d).
Proof.
  intros I L fuel. induction fuel as [|fuel IH]; intros d l d' H W S B; [discriminate|].
  pose proof (messages_inside f I _ _ _ _ _ H W) as (_ & _ & _).
  pose proof H as H0. cbn [messages_loop] in H.
  destruct (can_read 4 d) eqn:C4.
  2: { inversion H; subst. exists []. repeat split. constructor. }
  destruct (read_u32 d) as [n d1] eqn:E.
  destruct (inside_uint 4 _ _ _ E W) as (B1 & L1 & W1 & U1).
  assert (I1 : r_it d1 = r_it d + 4 /\ n = of_le (firstn 4 (skipn (r_it d) (r_buf d)))).
  { unfold read_u32, read_uint, rbind, read_raw in E. cbn [Nat.eqb negb andb] in E. rewrite C4 in E.
    injection E as <- <-. split; reflexivity. }
  destruct I1 as [I1 NV].
  assert (LD : 4 <= length (skipn (r_it d) (r_buf d))).
  { unfold can_read in C4. apply Nat.leb_le in C4. rewrite skipn_length. lia. }
  destruct (can_read (N.to_nat n) d1); cbn [negb] in H.
  2: { injection H as <- <-. exists []. cbn [map stream flat_map app r_it].
       rewrite I1. replace (r_it d + 4 - 4) with (r_it d) by lia. repeat split. constructor. }
  destruct (f d1) as [a d2] eqn:E2.
  destruct (I _ _ _ E2 W1) as (B2 & L2 & W2 & U2).
  destruct (Nat.eqb_spec (r_it d2) (r_it d1 + N.to_nat n)) as [EQ|EQ]; cbn [negb] in H; [|discriminate].
  destruct (messages_loop f fuel d2) as [[r2 l2] d3] eqn:E3. injection H as -> <- <-.
  assert (S2 : r_short d2 = false) by exact (short_mono f I L _ _ _ _ _ E3 W2 S).
  assert (BD2 : r_bad d2 = false) by exact (bad_mono f I L _ _ _ _ _ E3 W2 S B).
  destruct (L _ _ _ E2 W1 S2) as (_ & pre & p & post & dl & P1 & P2 & P3 & P4 & G).
  rewrite P4 in BD2. apply orb_false_iff in BD2. destruct BD2 as [_ DL]. subst dl.
  assert (LP : length p = N.to_nat n) by lia.
  destruct (IH _ _ _ E3 W2 S B) as (ms & GM & LM & SM).
  exists ((p, a) :: ms). cbn [flat_map snd map fst stream].
  assert (SH : short p).
  { unfold short. rewrite LP, N2Nat.id, NV.
    pose proof (of_le_bound (firstn 4 (skipn (r_it d) (r_buf d)))) as OB.
    rewrite firstn_length in OB. replace (Nat.min 4 (length (skipn (r_it d) (r_buf d)))) with 4 in OB by lia.
    exact OB. }
  split; [constructor; [|exact GM]|split; [rewrite LM; reflexivity|]].
  - split; [exact SH|]. cbn [fst snd]. intros pre' post' u b s. rewrite G, orb_false_r. reflexivity.
  - unfold stream in SM. rewrite B2, B1 in SM. rewrite (frame_le p SH). rewrite <- !app_assoc, <- SM.
    rewrite <- (firstn_skipn 4 (skipn (r_it d) (r_buf d))) at 1. f_equal.
    + unfold write_u32. rewrite LP, N2Nat.id, NV.
      assert (Len : length (firstn 4 (skipn (r_it d) (r_buf d))) = 4) by (rewrite firstn_length; lia).
      rewrite <- Len at 2. symmetry. apply le_of_le.
    + rewrite skipn_skipn'. rewrite <- I1. rewrite <- B1, P1.
      rewrite P3, <- P2. rewrite !skipn_app, skipn_all, Nat.sub_diag, skipn_O. cbn [app].
      replace (length pre + length p - length pre) with (length p) by lia.
      rewrite skipn_all, Nat.sub_diag, skipn_O.
      rewrite (skipn_all2 pre) by lia. reflexivity.
Qed.

Theorem accepted {A} (f : rd (list A)) buf k : inside f -> local f ->
  let r := read_messages f buf k in
  rr_ok r = Some true -> rr_short r = false -> rr_bad r = false ->
  exists got ms,
    recv_all buf k = (RecvOk got, rr_socket r) /\
    Forall (good f) ms /\ rr_handled r = flat_map snd ms /\
    got = stream (map fst ms) ++ rr_buf r.
Proof.
  intros I L r. unfold r, read_messages. clear r.
  destruct (recv_all buf k) as [[b| |] k']; [|discriminate|discriminate].
  destruct (messages_loop f (S (length b)) (Rd b 0 false false false)) as [[res l] d] eqn:E.
  cbn [rr_ok rr_short rr_bad rr_socket rr_handled rr_buf]. intros OK S B. subst res.
  destruct (accepted_messages f I L _ _ _ _ E) as (ms & G & HM & SK); [unfold within; cbn; lia|exact S|exact B|].
  exists b, ms. cbn [r_it r_buf skipn] in SK. auto.
Qed.

Lemma decodes_prefix {A} (f : rd A) p x a a' : decodes f p a -> decodes f (p ++ x) a' -> x = [].
Proof.
  intros D1 D2. specialize (D1 [] x false false false). specialize (D2 [] [] false false false).
  rewrite app_nil_r in D2. cbn [app length] in D1, D2. rewrite D1 in D2.
  injection D2 as _ L. rewrite app_length in L. destruct x; [reflexivity|cbn in L; lia].
Qed.

(** * Messages of the wrong size *)

Lemma loop_first {A} (f : rd (list A)) q rest fuel : short q ->
  messages_loop f (S fuel) (Rd (frame q ++ rest) 0 false false false) =
  let '(a, d2) := f (Rd (frame q ++ rest) 4 false false false) in
  if negb (Nat.eqb (r_it d2) (4 + length q)) then (Some false, a, d2)
  else let '(res, l, d3) := messages_loop f fuel d2 in (res, a ++ l, d3).
Proof.
  intro S. cbn [messages_loop]. rewrite (frame_le q S).
  assert (HL : length (write_u32 (N.of_nat (length q))) = 4) by (apply le_length).
  assert (C4 : can_read 4 (Rd ((write_u32 (N.of_nat (length q)) ++ q) ++ rest) 0 false false false) = true).
  { unfold can_read. cbn [r_it r_buf]. apply Nat.leb_le. rewrite !app_length. lia. }
  rewrite C4. unfold read_u32, read_uint, rbind, read_raw. cbn [Nat.eqb negb andb]. rewrite C4.
  cbn [r_it r_buf r_ub r_bad r_short skipn]. rewrite <- app_assoc.
  replace (of_le (firstn 4 (write_u32 (N.of_nat (length q)) ++ q ++ rest))) with (N.of_nat (length q)).
  2: { rewrite <- HL at 1. rewrite firstn_app, Nat.sub_diag, firstn_all, firstn_O, app_nil_r.
       symmetry. apply of_le_le. exact S. }
  cbv beta iota delta [rret].
  replace (Nat.ltb (length (write_u32 (N.of_nat (length q)) ++ q ++ rest)) (0 + 4)) with false.
  2: { symmetry. apply Nat.ltb_ge. rewrite app_length. lia. }
  rewrite Nat2N.id. cbn [orb].
  replace (can_read (length q) _) with true.
  2: { symmetry. unfold can_read. cbn [r_it r_buf]. apply Nat.leb_le. rewrite !app_length. lia. }
  reflexivity.
Qed.

Lemma longer {A} (f : rd (list A)) p a x rest k k' : decodes f p a -> x <> [] -> short (p ++ x) ->
  recv_all [] k = (RecvOk (frame (p ++ x) ++ rest), k') ->
  rr_ok (read_messages f [] k) = Some false.
Proof.
  intros D X S E. unfold read_messages. rewrite E, loop_first by exact S.
  set (hd := length_bytes (N.of_nat (length (p ++ x)))).
  assert (B : frame (p ++ x) ++ rest = hd ++ p ++ (x ++ rest)) by (unfold frame; rewrite <- !app_assoc; reflexivity).
  rewrite B. change 4 with (length hd) at 1. rewrite D.
  cbn [r_it]. change (length hd) with 4. rewrite app_length.
  destruct (Nat.eqb_spec (4 + length p) (4 + (length p + length x))) as [Q|Q].
  - destruct x; [congruence|cbn in Q; lia].
  - reflexivity.
Qed.

Lemma shorter {A} (f : rd (list A)) p x a rest k k' : inside f -> local f ->
  decodes f (p ++ x) a -> x <> [] -> short p ->
  recv_all [] k = (RecvOk (frame p ++ rest), k') ->
  let r := read_messages f [] k in
  rr_ok r = Some false \/ rr_short r = true.
Proof.
  intros I L D X S E. cbn zeta.
  pose proof (read_messages_fuel f [] k I) as FU.
  unfold read_messages in FU |- *. rewrite E in FU |- *. rewrite loop_first in FU |- * by exact S.
  set (hd := length_bytes (N.of_nat (length p))) in *.
  assert (B : frame p ++ rest = hd ++ p ++ rest) by (unfold frame; rewrite <- !app_assoc; reflexivity).
  assert (HL : length hd = 4) by reflexivity.
  rewrite B in *.
  assert (W : within (Rd (hd ++ p ++ rest) 4 false false false)).
  { unfold within. cbn [r_it r_buf]. rewrite app_length. lia. }
  destruct (f (Rd (hd ++ p ++ rest) 4 false false false)) as [a' d2] eqn:E2.
  destruct (I _ _ _ E2 W) as (B2 & L2 & W2 & U2).
  destruct (Nat.eqb_spec (r_it d2) (4 + length p)) as [Q|Q]; cbn [negb] in *; [|left; reflexivity].
  destruct (messages_loop f (length (hd ++ p ++ rest)) d2) as [[res l] d3] eqn:E3.
  cbn [rr_ok rr_short] in *.
  destruct (r_short d3) eqn:S3; [right; reflexivity|exfalso].
  assert (S2 : r_short d2 = false) by exact (short_mono f I L _ _ _ _ _ E3 W2 S3).
  destruct (L _ _ _ E2 W S2) as (_ & pre & q & post & dl & P1 & P2 & P3 & P4 & G).
  cbn [r_buf r_it] in P1, P2, P3.
  assert (EQ : q = p).
  { apply (f_equal (skipn 4)) in P1. rewrite <- HL in P1 at 1. rewrite <- P2 in P1.
    rewrite !skipn_app, !skipn_all, !Nat.sub_diag, !skipn_O in P1. cbn [app] in P1.
    apply (f_equal (firstn (length p))) in P1. assert (LQ : length q = length p) by lia.
    rewrite <- LQ in P1 at 2. rewrite !firstn_app, !firstn_all, !Nat.sub_diag, !firstn_O, !app_nil_r in P1.
    symmetry. exact P1. }
  subst q. specialize (G [] x false false false). specialize (D [] [] false false false).
  rewrite app_nil_r in D. cbn [app length] in D, G. rewrite G in D.
  injection D as _ LL. rewrite app_length in LL. destruct x; [congruence|cbn in LL; lia].
Qed.

Lemma local_answer : local read_answer.
Proof.
  unfold read_answer. apply local_bind; [insider|apply local_uint|intro t].
  destruct (t =? t_virtual_key_state)%N; [|apply local_ret].
  apply local_bind; [insider|apply local_uint|intro].
  apply local_bind; [insider|apply local_uint|intro; apply local_ret].
Qed.
Lemma local_key_info : local read_key_info.
Proof.
  unfold read_key_info. apply local_bind; [insider|apply local_uint|intro t].
  destruct (t =? t_next_key_info)%N; [|apply local_ret].
  apply local_bind; [insider|apply local_string|intro; apply local_ret].
Qed.
