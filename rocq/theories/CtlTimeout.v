(** When an operation of keymapperctl times out. *)
From Coq Require Import String Ascii List Arith NArith ZArith Bool Lia.
From Verif Require Import Base Key Text KeyNames ParseSeq Stage Config Serial SerialSpec SerialProofs SerialStream
  Client ClientSpec ClientProofs Ctl CtlSpec CtlLink CtlSystem CtlExchange.
Import ListNotations.
Local Open Scope nat_scope.

(** Not a whole message. *)
Definition incomplete (d : bytes) : Prop := forall b, short b -> d <> frame b.

Lemma part_incomplete d later a : short a -> d ++ later = frame a -> later <> [] -> incomplete d.
Proof.
  intros SA E N b SB ->. unfold frame in E. rewrite (length_bytes_le _ SA), (length_bytes_le _ SB), <- app_assoc in E.
  assert (H : le 4 (N.of_nat (length b)) = le 4 (N.of_nat (length a))).
  { apply (f_equal (firstn 4)) in E. rewrite !firstn_app, !le_length, Nat.sub_diag, !firstn_O, !app_nil_r in E.
    rewrite !firstn_all2 in E by (rewrite le_length; lia). exact E. }
  rewrite H in E. apply app_inv_head in E.
  assert (LE : N.of_nat (length b) = N.of_nat (length a)).
  { assert (Q : forall x, (x < 2 ^ 32)%N -> of_le (le 4 x) = x) by (intros x Hx; apply of_le_le; exact Hx).
    rewrite <- (Q _ SB), H. apply Q. exact SA. }
  apply Nnat.Nat2N.inj in LE. apply (f_equal (@length _)) in E. rewrite app_length in E.
  destruct later; [apply N; reflexivity|cbn in E; lia].
Qed.

Section Logs.
Variable at_client : nat -> N * nat.
Variable L : log.
Hypothesis DEL : delivers at_client L.
Hypothesis OK : forall s, lk_ok (link_of s (client_of L)) = true.
Hypothesis SHORT : forall s t, In (FAnswer s (ANextKeyInfo t)) (client_of L) -> short (write_amsg (ANextKeyInfo t)).
Variable connects : nat -> bool.
Variable sends : nat -> bool.
Variable incoming : nat -> option bytes.
Variable absolute : text -> option text.

Let settled := settled at_client.

(** A whole answer is taken for one. *)
Lemma exchange_late p m tail msg t c x c' h :
  L = p ++ m ++ tail -> settled p -> ctl_of p = g_trace c -> session_of (ctl_of p) <> None -> g_buf c = [] ->
  msg <> RNextKey -> exchange sends incoming msg t c = (RTimeout, x, c') ->
  g_trace c ++ ctl_of m = g_trace c' ++ h ->
  exists d, In (GRead t (Some d)) (ctl_of m) /\ incomplete d.
Proof.
  intros EL ST CP SE BU NK EX H.
  destruct (exchange_trace _ _ _ _ _ _ _ _ EX) as [(_ & Q & _)|[(_ & Q & _)|(_ & d & TR & RO & BF & [(HN & _ & _)|(k & st & _ & Q & _)])]];
    try discriminate Q.
  rewrite TR, <- app_assoc in H. apply app_inv_head in H. cbn [app] in H. exists d. rewrite H.
  split; [right; left; reflexivity|].
  destruct (session_of (ctl_of p)) as [[sent read]|] eqn:SO; [|destruct (SE eq_refl)].
  destruct (at_client (connected (ctl_of p))) as [s n] eqn:AC0.
  destruct (send_read at_client L DEL OK p m tail msg t d h sent read s n EL ST SO AC0 H) as (w0 & w & m' & EM & EH & [D|D]).
  { subst d. intros b _ Q. symmetry in Q. exact (frame_nonempty b Q). }
  destruct D as (r & w1 & w2 & a & w3 & o & later & ER & EW & ED & ID & QU & OW & PAY & _).
  assert (PT : prefix (client_of p ++ w0 ++ w1 ++ FAsked s r :: w2) (client_of L)).
  { rewrite EL, EM, !client_app, client_ac. cbn [client_of flat_map app].
    change (flat_map _ (map AC w ++ AG (GRead t (Some d)) :: m')) with (client_of (map AC w ++ AG (GRead t (Some d)) :: m')).
    rewrite client_app, client_ac, EW. exists ((FAnswer s a :: w3) ++ client_of m' ++ client_of tail).
    rewrite <- !app_assoc. cbn [app]. rewrite <- !app_assoc. reflexivity. }
  assert (NI : forall y, a <> ANextKeyInfo y).
  { intros y ->. assert (OF := OW).
    replace (client_of p ++ w0 ++ w1 ++ FAsked s r :: w2) with ((client_of p ++ w0 ++ w1) ++ FAsked s r :: w2) in OF
      by (rewrite <- !app_assoc; reflexivity).
    apply (owed_for s _ r w2 o ID QU) in OF.
    assert (OI : o = OInfo) by (destruct o; try discriminate PAY; reflexivity).
    destruct msg; cbn [rcalls] in ER; try (injection ER as <-); try (destruct (NK eq_refl));
      cbn [asks_for] in OF; try (rewrite OI in OF; discriminate OF).
    destruct (N.eqb _ 0); [rewrite OI in OF; discriminate OF|]. destruct OF as [OF _]. rewrite OI in OF. discriminate OF. }
  destruct (answer_fits L OK s _ a o OW PT PAY NI) as (k' & st' & EA & KEY). subst a.
  assert (SHO : short (write_amsg (AVirtual k' st'))) by reflexivity.
  apply (part_incomplete d later _ SHO ED). intro Q.
  destruct (read_one read_answer _ _ d later SHO (answer_decodes k' st' KEY) ED) as (_ & [(_ & _ & R)|(R & _)]); [exact (R Q)|].
  rewrite BU, R in HN. discriminate HN.
Qed.
Lemma next_late p m tail t c c' h :
  L = p ++ m ++ tail -> settled p -> ctl_of p = g_trace c -> session_of (ctl_of p) <> None -> g_buf c = [] ->
  next_key_info sends incoming t c = (RTimeout, c') -> g_trace c ++ ctl_of m = g_trace c' ++ h ->
  exists d, In (GRead t (Some d)) (ctl_of m) /\ incomplete d.
Proof.
  intros EL ST CP SE BU EX H.
  assert (TT : exists d, g_trace c' = g_trace c ++ [GSend RNextKey true; GRead t (Some d)] /\
    let l := rr_handled (read_messages read_key_info (g_buf c) [KData d]) in last_of l = None \/ last_of l = Some []).
  { unfold next_key_info, ctl_send, ctl_read in EX. destruct (sends (g_sends c)); cbn [negb] in EX; [|discriminate EX].
    destruct (match t with Some n => (n <? 0)%Z | None => false end); [discriminate EX|]. cbn [g_reads k_emit g_buf] in EX.
    destruct (incoming (g_reads c)) as [d|].
    - exists d. destruct (rr_ok _) as [[|]|]; try discriminate EX.
      destruct (last_of (rr_handled (read_messages read_key_info (g_buf c) [KData d]))) as [[|]|] eqn:LO; try discriminate EX;
        injection EX as <-; cbn [k_emit g_trace]; rewrite <- app_assoc; auto.
    - exfalso. destruct (rr_ok (read_messages read_key_info (g_buf c) [KError])) as [[|]|] eqn:Q; try discriminate EX.
      revert Q. unfold read_messages, recv_all. cbn [pending_bytes fold_right recv_loop]. rewrite Nat.eqb_refl.
      set (n := length (g_buf c)). assert (Q : exists j, n + 1024 - n = S j) by (exists 1023; lia).
      destruct Q as [j ->]. discriminate. }
  destruct TT as (d & TR & HN).
  rewrite TR, <- app_assoc in H. apply app_inv_head in H. cbn [app] in H. exists d. rewrite H.
  split; [right; left; reflexivity|].
  destruct (session_of (ctl_of p)) as [[sent read]|] eqn:SO; [|destruct (SE eq_refl)].
  destruct (at_client (connected (ctl_of p))) as [s n] eqn:AC0.
  destruct (send_read at_client L DEL OK p m tail RNextKey t d h sent read s n EL ST SO AC0 H) as (w0 & w & m' & EM & EH & [D|D]).
  { subst d. intros b _ Q. symmetry in Q. exact (frame_nonempty b Q). }
  destruct D as (r & w1 & w2 & a & w3 & o & later & ER & EW & ED & ID & QU & OW & PAY & _). injection ER as <-.
  assert (IN : In (FAnswer s a) (client_of L)).
  { rewrite EL, EM, !client_app, client_ac. cbn [client_of flat_map app].
    change (flat_map _ (map AC w ++ AG (GRead t (Some d)) :: m')) with (client_of (map AC w ++ AG (GRead t (Some d)) :: m')).
    rewrite client_app, client_ac, EW, !in_app_iff. right. left. right. left. right. right.
    rewrite in_app_iff. right. left. reflexivity. }
  assert (NI : exists y, a = ANextKeyInfo y).
  { assert (OF := OW).
    replace (client_of p ++ w0 ++ w1 ++ FAsked s QNextKey :: w2) with ((client_of p ++ w0 ++ w1) ++ FAsked s QNextKey :: w2) in OF
      by (rewrite <- !app_assoc; reflexivity).
    apply (owed_for s _ _ w2 o ID QU) in OF. cbn [asks_for] in OF. destruct OF as [-> _].
    destruct a; [discriminate PAY|eauto]. }
  destruct NI as [y ->]. pose proof (SHORT s y IN) as SHO.
  apply (part_incomplete d later _ SHO ED). intro Q.
  destruct (read_one read_key_info _ _ d later SHO (key_info_decodes y (short_text y SHO)) ED) as (_ & [(_ & _ & R)|(R & _)]); [exact (R Q)|].
  rewrite BU, R in HN. cbv zeta in HN. rewrite last_of_one in HN. destruct HN as [HN|HN]; [discriminate HN|].
  injection HN as ->. destruct o; discriminate PAY.
Qed.

Lemma perform_late p m tail q last c c' :
  L = p ++ m ++ tail -> settled p -> ctl_of p = g_trace c -> session_of (ctl_of p) <> None -> g_buf c = [] ->
  perform sends incoming absolute q last c = (RTimeout, c') -> g_trace c ++ ctl_of m = g_trace c' -> exchanges q = true ->
  exists d, In (GRead (rq_timeout q) (Some d)) (ctl_of m) /\ incomplete d.
Proof.
  intros EL ST CP SE BU PF TR XQ.
  assert (FIRST : forall msg x c1 h, msg <> RNextKey -> exchange sends incoming msg (rq_timeout q) c = (RTimeout, x, c1) ->
            g_trace c ++ ctl_of m = g_trace c1 ++ h -> exists d, In (GRead (rq_timeout q) (Some d)) (ctl_of m) /\ incomplete d).
  { intros msg x c1 h NK EX H. eapply exchange_late; eassumption. }
  assert (TR0 : g_trace c ++ ctl_of m = g_trace c' ++ []) by (rewrite app_nil_r; exact TR).
  unfold exchanges in XQ. unfold perform in PF. destruct (rq_type q) eqn:ET; try discriminate XQ.
  1-3: destruct (exchange sends incoming _ (rq_timeout q) c) as [[r0 x] c1] eqn:EX; injection PF as ER EC; subst c1;
       destruct r0; try discriminate ER; [destruct (is_state x Up || is_state x Down); discriminate ER|];
       eapply FIRST; [|exact EX|exact TR0]; discriminate.
  1-2: destruct (exchange sends incoming _ (rq_timeout q) c) as [[r0 x] c1] eqn:EX; injection PF as ER EC; subst c1;
       destruct r0; try discriminate ER;
       [repeat match type of ER with context [if ?b then _ else _] => destruct b end; discriminate ER|];
       eapply FIRST; [|exact EX|exact TR0]; discriminate.
  1-3: destruct (exchange sends incoming (RGet (rq_string q)) (rq_timeout q) c) as [[r0 x] c1] eqn:EX;
       destruct r0; try (injection PF as ER; discriminate ER); try discriminate PF;
       [|injection PF as EC; subst c1; eapply FIRST; [|exact EX|exact TR0]; discriminate];
       try (match type of PF with context [if ?b then _ else _] => destruct b; [discriminate PF|] end);
       destruct (exchange sends incoming (RNotify (rq_string q)) (rq_timeout q) c1) as [[r1 x1] c2] eqn:EX2;
       injection PF as ER EC; subst r1 c2;
       (assert (TRH : exists h, g_trace c ++ ctl_of m = g_trace c1 ++ h) by
         (destruct (exchange_trace _ _ _ _ _ _ _ _ EX2) as [(_ & _ & _ & Q)|[(_ & _ & b0 & Q)|(_ & d0 & Q & _)]];
          rewrite Q in TR; eexists; exact TR));
       destruct TRH as [h TRH];
       destruct (exchange_yes at_client L DEL OK sends incoming p m tail (RGet (rq_string q)) (rq_timeout q) c x c1 h EL ST CP SE BU
                   ltac:(discriminate) EX TRH) as
         (mm & m' & s & r1 & v1 & v2 & k & st & v3 & E1 & E2 & E3 & E4 & E5 & E6 & E7 & E8 & E9);
       destruct (exchange_late (p ++ mm) m' tail (RNotify (rq_string q)) (rq_timeout q) c1 x1 c' []) as (d & D1 & D2);
         [rewrite EL, E1, <- !app_assoc; reflexivity|exact E4|exact E3|exact E6|exact E5|discriminate|exact EX2
         |rewrite app_nil_r, E2, <- TRH; exact TR|];
       exists d; (split; [|exact D2]); rewrite E1, ctl_app; apply in_or_app; right; exact D1.
  - rewrite instance_exchange in PF. destruct (exchange sends incoming (RInstance (rq_string q)) (rq_timeout q) c) as [[r0 x] c1] eqn:EX.
    injection PF as -> EC. eapply FIRST; [|exact EX|]; [discriminate|].
    assert (EQ : g_trace c1 = g_trace c') by (rewrite <- EC; destruct (sends (g_sends c)); reflexivity). rewrite EQ. exact TR0.
  - destruct (absolute (rq_string q)) as [f|]; [|discriminate PF].
    destruct (exchange sends incoming (RConfig f) (rq_timeout q) c) as [[r0 x] c1] eqn:EX. injection PF as ER EC. subst c1.
    destruct r0; try discriminate ER; [unfold to_result in ER; destruct (is_state x Down); discriminate ER|].
    eapply FIRST; [|exact EX|exact TR0]. discriminate.
  - eapply next_late; eassumption.
  - destruct (exchange sends incoming _ (rq_timeout q) c) as [[r0 x] c1] eqn:EX. injection PF as ER EC. subst c1.
    destruct r0; try discriminate ER; [unfold to_result in ER; destruct (is_state x Down); discriminate ER|].
    eapply FIRST; [|exact EX|exact TR0]. discriminate.
  - destruct (exchange sends incoming _ (rq_timeout q) c) as [[r0 x] c1] eqn:EX. injection PF as ER EC. subst c1.
    destruct r0; try discriminate ER; [unfold to_result in ER; destruct (is_state x Down); discriminate ER|].
    eapply FIRST; [|exact EX|exact TR0]. discriminate.
  - destruct (exchange sends incoming _ (rq_timeout q) c) as [[r0 x] c1] eqn:EX. injection PF as ER EC. subst c1.
    destruct r0; try discriminate ER; [unfold to_result in ER; destruct (is_state x Down); discriminate ER|].
    eapply FIRST; [|exact EX|exact TR0]. discriminate.
Qed.

Lemma operation_late r0 c0 p q m tail : history connects sends incoming absolute r0 c0 ->
  L = p ++ AG (GBegin q) :: m ++ AG (GEnd q RTimeout) :: tail -> prefix (ctl_of L) (g_trace c0) -> no_begin (ctl_of m) ->
  undisturbed (ctl_of p) = true -> exchanges q = true ->
  exists d, In (GRead (rq_timeout q) (Some d)) (ctl_of m) /\ incomplete d.
Proof.
  intros H EL [rest PR] NB UN XQ. set (r := RTimeout) in *.
  rewrite EL, ctl_app in PR. cbn [ctl_of flat_map app] in PR.
  change (flat_map _ (m ++ AG (GEnd q r) :: tail)) with (ctl_of (m ++ AG (GEnd q r) :: tail)) in PR.
  rewrite ctl_app in PR. change (ctl_of (AG (GEnd q r) :: tail)) with (GEnd q r :: ctl_of tail) in PR.
  change (flat_map _ p) with (ctl_of p) in PR.
  rewrite <- !app_assoc in PR. cbn [app] in PR. rewrite <- !app_assoc in PR. cbn [app] in PR.
  destruct (history_split _ _ _ _ _ _ H (ctl_of p) q (ctl_of m) r (ctl_of tail ++ rest) PR NB) as (r1 & c1 & c2 & H1 & T1 & M & T2).
  destruct (history_settled at_client L DEL OK SHORT _ _ _ _ r1 c1 H1 p (AG (GBegin q) :: m ++ AG (GEnd q r) :: tail) EL (eq_sym T1)) as (S1 & S2 & S3).
  { rewrite T1. exact UN. }
  destruct (request_trace _ _ _ _ _ _ _ _ M) as (es & d1 & d2 & P & -> & -> & T3 & F & T').
  set (p1 := p ++ [AG (GBegin q)]).
  assert (C1 : ctl_of p1 = g_trace c1 ++ [GBegin q]) by (unfold p1; rewrite ctl_app, T1; reflexivity).
  assert (SS : session_of (g_trace c1 ++ [GBegin q]) = session_of (g_trace c1)).
  { rewrite session_app. destruct (session_of (g_trace c1)) as [[]|]; reflexivity. }
  assert (SP1 : settled p1).
  { apply (settled_more at_client L DEL OK); [exact S1| | |].
    - exists (m ++ AG (GEnd q r) :: tail). rewrite EL, <- app_assoc. reflexivity.
    - change (p ++ [AG (GBegin q)]) with p1. rewrite C1, <- T1. exact SS.
    - change (p ++ [AG (GBegin q)]) with p1. rewrite C1, <- T1, connected_app. apply Nat.add_0_r. }
  assert (EM : es = ctl_of m).
  { rewrite T' in T2. rewrite <- T1 in T2. apply app_inv_head in T2. injection T2 as T2. apply app_inv_tail in T2. exact T2. }
  apply (perform_late p1 m (AG (GEnd q r) :: tail) q r1 (k_emit (GBegin q) c1) d2); auto.
  { unfold p1. rewrite EL, <- app_assoc. reflexivity. }
  { rewrite C1, SS. exact S3. }
  { rewrite T3, EM. reflexivity. }
Qed.
End Logs.
