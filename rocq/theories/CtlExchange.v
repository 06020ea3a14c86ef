(** A request of keymapperctl and the answer it reads. *)
From Coq Require Import String Ascii List Arith NArith ZArith Bool Lia.
From Verif Require Import Base Key Text KeyNames ParseSeq Stage Config Serial SerialSpec SerialProofs SerialStream
  Client ClientSpec ClientProofs Ctl CtlSpec CtlLink CtlSystem.
Import ListNotations.
Local Open Scope nat_scope.

(** * Reading one message *)
Lemma read_one {A} (f : rd (list A)) b l d later : short b -> decodes f b l -> d ++ later = frame b ->
  let r := read_messages f [] [KData d] in
  rr_ok r = Some true /\
  (rr_handled r = [] /\ rr_buf r = d /\ later <> [] \/ rr_handled r = l /\ rr_buf r = [] /\ later = []).
Proof.
  intros S D E. cbv zeta.
  assert (NE : frame b <> []).
  { unfold frame. intro Q. apply (f_equal (@length _)) in Q. rewrite app_length, length_bytes_le, le_length in Q; [cbn in Q; lia|exact S]. }
  destruct (read_messages_spec f [(b, l)] 0 [] [KData d] later) as (j & r & J & _ & R & OK & H & _ & _ & BT & SO).
  { constructor; [split; assumption|constructor]. }
  { split; [cbn; lia|]. split; [constructor; [exact I|constructor]|]. split.
    { cbn [skipn data map fst stream flat_map app]. rewrite !app_nil_r. exact E. }
    split; [|discriminate]. cbn [skipn].
    intros m0 r0 Q. injection Q as <- <-. cbn [fst]. destruct (frame b); [contradiction|cbn; lia]. }
  rewrite R. split; [exact OK|]. rewrite H. clear H. destruct BT as (_ & AL & B1 & B2 & B3).
  assert (SK : rr_socket r = []). { destruct SO as [Q|Q]; [exact Q|cbn in Q; lia]. }
  rewrite SK in *. cbn [data app] in B1. cbn [length] in J.
  destruct j as [|[|j]]; [| |lia]; cbn [skipn map stream flat_map firstn Nat.sub app fst snd] in *.
  - left. split; [reflexivity|]. rewrite app_nil_r, <- E in B1.
    assert (Q : rr_buf r = d) by (apply app_inv_tail in B1; exact B1). split; [exact Q|].
    intros ->. specialize (B2 _ _ eq_refl). cbn [fst] in B2. rewrite <- E, app_nil_r, Q in B2. lia.
  - right. rewrite app_nil_r. split; [reflexivity|]. rewrite (B3 eq_refl) in *. auto.
Qed.

Lemma session_app a b : session_of (a ++ b) = fold_left session_step b (session_of a).
Proof. unfold session_of. apply fold_left_app. Qed.
Lemma connected_app a b : connected (a ++ b) = connected a + connected b.
Proof. unfold connected. rewrite filter_app, app_length. reflexivity. Qed.
Lemma rcalls_one m : exists r, rcalls m = [r].
Proof. destruct m; eexists; reflexivity. Qed.
Lemma rcalls_length l : length (flat_map rcalls l) = length l.
Proof.
  induction l as [|m l IH]; [reflexivity|]. cbn [flat_map]. rewrite app_length, IH.
  destruct (rcalls_one m) as [r ->]. reflexivity.
Qed.
Lemma prefix_snoc {A} (a : list A) b l : prefix a (l ++ [b]) -> length a = S (length l) -> a = l ++ [b].
Proof. intros H E. apply prefix_eq; [exact H|]. rewrite app_length, E. cbn. lia. Qed.
Lemma prefix_app_inv {A} (a b c : list A) : prefix (a ++ b) (a ++ c) -> prefix b c.
Proof. intros [x E]. rewrite <- app_assoc in E. apply app_inv_head in E. exists x. exact E. Qed.
Lemma split_answer s u a : answers s u = [a] -> exists u1 u2, u = u1 ++ FAnswer s a :: u2 /\ answers s u1 = [] /\ answers s u2 = [].
Proof.
  induction u as [|e u IH]; intro H; [discriminate H|].
  change (answers s (e :: u)) with ((match e with FAnswer s' m => if N.eqb s' s then [m] else [] | _ => [] end) ++ answers s u) in H.
  assert (R : answers s [e] = [] -> answers s u = [a] -> exists u1 u2, e :: u = u1 ++ FAnswer s a :: u2 /\ answers s u1 = [] /\ answers s u2 = []).
  { intros R1 R2. destruct (IH R2) as (u1 & u2 & -> & Q1 & Q2). exists (e :: u1), u2. split; [reflexivity|]. split; [|exact Q2].
    change (e :: u1) with ([e] ++ u1). rewrite answers_app, R1. exact Q1. }
  destruct e; try (apply R; [reflexivity|exact H]).
  destruct (N.eqb_spec socket s) as [E|E].
  - subst socket. cbn [app] in H. injection H as -> H. exists [], u. auto.
  - apply R; [|exact H]. unfold answers. cbn [flat_map]. apply N.eqb_neq in E. rewrite E. reflexivity.
Qed.
Lemma split_asked s u r : asked s u = [r] -> exists u1 u2, u = u1 ++ FAsked s r :: u2 /\ asked s u1 = [] /\ asked s u2 = [].
Proof.
  induction u as [|e u IH]; intro H; [discriminate H|].
  change (asked s (e :: u)) with ((match e with FAsked s' m => if N.eqb s' s then [m] else [] | _ => [] end) ++ asked s u) in H.
  assert (R : asked s [e] = [] -> asked s u = [r] -> exists u1 u2, e :: u = u1 ++ FAsked s r :: u2 /\ asked s u1 = [] /\ asked s u2 = []).
  { intros R1 R2. destruct (IH R2) as (u1 & u2 & -> & Q1 & Q2). exists (e :: u1), u2. split; [reflexivity|]. split; [|exact Q2].
    change (e :: u1) with ([e] ++ u1). rewrite asked_app, R1. exact Q1. }
  destruct e; try (apply R; [reflexivity|exact H]).
  destruct (N.eqb_spec socket s) as [E|E].
  - subst socket. cbn [app] in H. injection H as -> H. exists [], u. auto.
  - apply R; [|exact H]. unfold asked. cbn [flat_map]. apply N.eqb_neq in E. rewrite E. reflexivity.
Qed.

(** Nothing comes or goes on the connection. *)
Definition quiet (s : N) (w : trace) : Prop := asked s w = [] /\ answers s w = [] /\ stays s w.
(** Nothing is left to be answered. *)
Definition idle (x : link) : Prop :=
  lk_open x = true /\ lk_owed x = None /\ lk_armed x = 0%N /\ lk_info x = false.
Lemma waiting_idle x : lk_open x = true -> waiting x = 0 -> idle x.
Proof.
  unfold waiting, idle. intros O H. destruct (lk_owed x); [lia|]. destruct (N.eqb_spec (lk_armed x) 0); [|lia].
  destruct (lk_info x); [lia|]. auto.
Qed.

Section Logs.
Variable at_client : nat -> N * nat.
Variable L : log.
Hypothesis DEL : delivers at_client L.
Hypothesis OK : forall s, lk_ok (link_of s (client_of L)) = true.
Hypothesis SHORT : forall s t, In (FAnswer s (ANextKeyInfo t)) (client_of L) -> short (write_amsg (ANextKeyInfo t)).

Definition told (s : N) (n : nat) (p : log) : list amsg := answers s (on_connection s n (client_of p)).

Lemma delivered p sent read s n : prefix p L -> session_of (ctl_of p) = Some (sent, read) ->
  at_client (connected (ctl_of p)) = (s, n) ->
  nth_error (client_of p) n = Some (FAccepted s) /\
  lk_open (link_of s (firstn n (client_of p))) = false /\
  prefix (asked s (on_connection s n (client_of p))) (flat_map rcalls sent) /\
  prefix read (stream (map write_amsg (told s n p))).
Proof. intros P SS C. specialize (DEL p P). rewrite SS, C in DEL. exact DEL. Qed.

Lemma ok_prefix s t : prefix t (client_of L) -> lk_ok (link_of s t) = true.
Proof. intros [x E]. apply (ok_mono s t x). rewrite <- E. apply OK. Qed.

(** A part of the connection which began with [p]. *)
Lemma part_counts p sent read s n v : prefix p L -> session_of (ctl_of p) = Some (sent, read) ->
  at_client (connected (ctl_of p)) = (s, n) -> stays s v -> prefix (firstn (S n) (client_of p) ++ v) (client_of L) ->
  let x := link_of s (firstn (S n) (client_of p) ++ v) in
  lk_open x = true /\ lk_answered x = length (answers s v) /\ lk_asked x = length (asked s v) /\
  length (answers s v) + waiting x <= length (asked s v).
Proof.
  intros P SS C ST PR. destruct (delivered p sent read s n P SS C) as (D1 & D2 & _).
  destruct (link_counts s _ n D1 D2 v ST) as (A & B & F). cbv zeta.
  destruct (fair_of s _ (ok_prefix s _ PR)) as [Q _].
  rewrite B, F in Q. auto.
Qed.

Lemma accepted_split p sent read s n : prefix p L -> session_of (ctl_of p) = Some (sent, read) ->
  at_client (connected (ctl_of p)) = (s, n) ->
  client_of p = firstn (S n) (client_of p) ++ skipn (S n) (client_of p) /\ S n <= length (client_of p).
Proof.
  intros P SS C. destruct (delivered p sent read s n P SS C) as (D1 & _). split; [symmetry; apply firstn_skipn|].
  apply nth_error_Some. rewrite D1. discriminate.
Qed.

Lemma told_bound p sent read s n : prefix p L -> session_of (ctl_of p) = Some (sent, read) ->
  at_client (connected (ctl_of p)) = (s, n) -> length (told s n p) <= length sent.
Proof.
  intros P SS C. destruct (delivered p sent read s n P SS C) as (D1 & D2 & D3 & _).
  destruct (accepted_split p sent read s n P SS C) as [E _].
  destruct (part_counts p sent read s n (on_connection s n (client_of p)) P SS C) as (_ & _ & _ & B).
  { apply until_stays. }
  { eapply prefix_trans; [|apply prefix_client; exact P]. 
    destruct (until_prefix s (skipn (S n) (client_of p))) as [x X]. exists x. unfold on_connection.
    rewrite <- app_assoc, <- X. exact E. }
  apply prefix_length in D3. rewrite rcalls_length in D3. unfold told. lia.
Qed.
Lemma told_more p q s n : S n <= length (client_of p) -> prefix (told s n p) (told s n (p ++ q)).
Proof.
  intro H. unfold told, on_connection. rewrite client_app, skipn_app.
  replace (S n - length (client_of p)) with 0 by lia. rewrite skipn_O. apply answers_until.
Qed.

(** Everything was answered, and all answers were read. *)
Definition settled (p : log) : Prop :=
  forall sent read s n, session_of (ctl_of p) = Some (sent, read) -> at_client (connected (ctl_of p)) = (s, n) ->
    read = stream (map write_amsg (told s n p)) /\ length (told s n p) = length sent.

Lemma settled_more p q : settled p -> prefix (p ++ q) L ->
  session_of (ctl_of (p ++ q)) = session_of (ctl_of p) -> connected (ctl_of (p ++ q)) = connected (ctl_of p) ->
  settled (p ++ q).
Proof.
  intros H P SS C sent read s n S1 C1. rewrite SS in S1. pose proof C1 as C2. rewrite C in C2.
  assert (P0 : prefix p L) by (eapply prefix_trans; [apply prefix_app|exact P]).
  destruct (H sent read s n S1 C2) as [A B].
  destruct (accepted_split p sent read s n P0 S1 C2) as [_ AL].
  assert (E : told s n p = told s n (p ++ q)).
  { apply prefix_eq; [apply told_more; exact AL|]. rewrite B. apply (told_bound _ sent read); try assumption.
    rewrite SS. exact S1. }
  rewrite <- E. auto.
Qed.
Lemma settled_connect p q : prefix (p ++ AG (GConnect true) :: q) L -> ctl_of q = [] -> settled (p ++ AG (GConnect true) :: q).
Proof.
  intros P Q sent read s n SS C.
  assert (E : sent = [] /\ read = []).
  { rewrite ctl_app, session_app in SS. cbn [ctl_of flat_map] in SS. change (flat_map _ q) with (ctl_of q) in SS. rewrite Q in SS.
    cbn [app fold_left session_step] in SS. injection SS as <- <-. auto. }
  destruct E as [-> ->]. pose proof (told_bound _ _ _ _ _ P SS C) as B. cbn [length] in B.
  destruct (told s n (p ++ AG (GConnect true) :: q)); [auto|cbn in B; lia].
Qed.

Lemma frame_nonempty b : frame b <> [].
Proof.
  unfold frame, length_bytes. intro Q. apply (f_equal (@length _)) in Q. rewrite app_length in Q.
  unfold write_u32, le in Q. cbn in Q. lia.
Qed.

(** The answer which is read is the answer to the request. *)
Lemma send_read p m tail msg t d h sent read s n :
  L = p ++ m ++ tail -> settled p -> session_of (ctl_of p) = Some (sent, read) ->
  at_client (connected (ctl_of p)) = (s, n) ->
  ctl_of m = GSend msg true :: GRead t (Some d) :: h ->
  exists w0 w m', m = map AC w0 ++ AG (GSend msg true) :: map AC w ++ AG (GRead t (Some d)) :: m' /\ ctl_of m' = h /\
  (d = [] \/
   exists r w1 w2 a w3 o later, rcalls msg = [r] /\ w = w1 ++ FAsked s r :: w2 ++ FAnswer s a :: w3 /\
     d ++ later = frame (write_amsg a) /\
     idle (link_of s (client_of p ++ w0 ++ w1)) /\ quiet s w2 /\
     lk_owed (link_of s (client_of p ++ w0 ++ w1 ++ FAsked s r :: w2)) = Some o /\ pays o a = true /\
     (later = [] -> settled (p ++ map AC w0 ++ AG (GSend msg true) :: map AC w ++ [AG (GRead t (Some d))]))).
Proof.
  intros EL ST SE C M.
  destruct (next_ctl m _ _ M) as (w0 & m1 & E1 & M1).
  destruct (next_ctl m1 _ _ M1) as (w & m' & E2 & M2).
  exists w0, w, m'. split; [rewrite E1, E2; reflexivity|]. split; [exact M2|].
  set (pS := p ++ map AC w0).
  set (pR := pS ++ AG (GSend msg true) :: map AC w ++ [AG (GRead t (Some d))]).
  assert (PR : prefix pR L).
  { exists (m' ++ tail). rewrite EL, E1, E2. unfold pR, pS. rewrite <- !app_assoc. cbn [app].
    rewrite <- !app_assoc. cbn [app]. rewrite <- ?app_assoc. reflexivity. }
  assert (PS : prefix pS L) by (eapply prefix_trans; [apply prefix_app|exact PR]).
  assert (CS : ctl_of pS = ctl_of p) by (unfold pS; rewrite ctl_app, ctl_ac, app_nil_r; reflexivity).
  assert (CR : ctl_of pR = ctl_of p ++ [GSend msg true; GRead t (Some d)]).
  { unfold pR. rewrite ctl_app, CS. f_equal. cbn [ctl_of flat_map app]. f_equal.
    change (flat_map _ (map AC w ++ [AG (GRead t (Some d))])) with (ctl_of (map AC w ++ [AG (GRead t (Some d))])).
    rewrite ctl_app, ctl_ac. reflexivity. }
  assert (HS : settled pS) by exact (settled_more p (map AC w0) ST PS (f_equal session_of CS) (f_equal connected CS)).
  assert (SS : session_of (ctl_of pS) = Some (sent, read)) by (rewrite CS; exact SE).
  assert (SR : session_of (ctl_of pR) = Some (sent ++ [msg], read ++ d)).
  { rewrite CR, session_app, SE. reflexivity. }
  assert (CC : at_client (connected (ctl_of pS)) = (s, n)) by (rewrite CS; exact C).
  assert (CD : at_client (connected (ctl_of pR)) = (s, n)).
  { rewrite CR, connected_app. cbn [connected List.filter length]. rewrite Nat.add_0_r. exact C. }
  destruct (HS sent read s n SS CC) as [RD LN].
  destruct (accepted_split pS sent read s n PS SS CC) as [SPL AL].
  destruct (delivered pS sent read s n PS SS CC) as (_ & _ & AS & _).
  destruct (delivered pR _ _ s n PR SR CD) as (_ & _ & AR & DR).
  pose proof (told_bound pR _ _ s n PR SR CD) as BR. rewrite app_length in BR. cbn [length] in BR.
  assert (TM : prefix (told s n pS) (told s n pR)) by (apply told_more; exact AL).
  destruct TM as [B TB].
  assert (DB : prefix d (stream (map write_amsg B))).
  { rewrite TB, map_app, stream_app, <- RD in DR. apply prefix_app_inv in DR. exact DR. }
  assert (LB : length B <= 1).
  { rewrite TB, app_length, LN in BR. lia. }
  destruct B as [|a B].
  { left. destruct DB as [x DB]. cbn in DB. destruct d; [reflexivity|discriminate DB]. }
  destruct B as [|a' B]; [|cbn in LB; lia]. right. clear LB.
  (* the connection was still there before sending *)
  set (X := skipn (S n) (client_of pS)) in *.
  assert (CLR : client_of pR = client_of pS ++ w).
  { unfold pR. rewrite client_app. f_equal. cbn [client_of flat_map app].
    change (flat_map _ (map AC w ++ [AG (GRead t (Some d))])) with (client_of (map AC w ++ [AG (GRead t (Some d))])).
    rewrite client_app, client_ac. cbn. apply app_nil_r. }
  assert (XR : skipn (S n) (client_of pR) = X ++ w).
  { rewrite CLR, skipn_app. replace (S n - length (client_of pS)) with 0 by lia. reflexivity. }
  destruct (stays_dec s X) as [HX|HX].
  2:{ exfalso. unfold told, on_connection in TB. rewrite XR, (until_closed_app s X w HX) in TB. fold X in TB.
      apply (f_equal (@length _)) in TB. rewrite app_length in TB. cbn in TB. lia. }
  assert (TS : told s n pS = answers s X) by (unfold told, on_connection; fold X; rewrite (until_id s X HX); reflexivity).
  assert (ON : on_connection s n (client_of pR) = X ++ until_closed s w).
  { unfold on_connection. rewrite XR. apply until_app. exact HX. }
  assert (AW : answers s (until_closed s w) = [a]).
  { unfold told at 1 in TB. rewrite ON, answers_app, TS in TB. apply app_inv_head in TB. exact TB. }
  destruct (split_answer s _ a AW) as (u & w3' & EU & U1 & U2).
  destruct (until_prefix s w) as [w4 EW].
  pose proof (until_stays s w) as STW. rewrite EU in STW. apply Forall_app in STW. destruct STW as [STU _].
  (* the counters *)
  assert (FP : forall v z, client_of pS ++ w = client_of pS ++ v ++ z -> prefix (firstn (S n) (client_of pS) ++ X ++ v) (client_of L)).
  { intros v z Q. rewrite app_assoc. rewrite <- SPL. eapply prefix_trans; [|apply prefix_client; exact PR].
    rewrite CLR, Q, app_assoc. apply prefix_app. }
  assert (WU : w = u ++ FAnswer s a :: w3' ++ w4).
  { rewrite EW, EU, <- app_assoc. reflexivity. }
  assert (LX : length (asked s X) <= length sent).
  { unfold on_connection in AS. fold X in AS. rewrite (until_id s X HX) in AS.
    apply prefix_length in AS. rewrite rcalls_length in AS. exact AS. }
  assert (SXU : stays s (X ++ u)) by (apply Forall_app; split; assumption).
  destruct (part_counts pS sent read s n (X ++ u) PS SS CC SXU (FP u _ ltac:(rewrite WU at 1; reflexivity))) as (O1 & _ & _ & W1).
  rewrite answers_app, U1, app_nil_r, <- TS, LN in W1.
  assert (CU : firstn (S n) (client_of pS) ++ X ++ u = client_of pS ++ u).
  { rewrite app_assoc. rewrite <- SPL. reflexivity. }
  rewrite CU in O1, W1.
  (* the answer is due *)
  assert (OK1 : lk_ok (link_of s ((client_of pS ++ u) ++ [FAnswer s a])) = true).
  { apply ok_prefix. eapply prefix_trans; [|apply prefix_client; exact PR]. rewrite CLR, WU.
    exists (w3' ++ w4). rewrite <- !app_assoc. reflexivity. }
  rewrite link_snoc in OK1. cbn [link_step] in OK1. rewrite N.eqb_refl in OK1. cbn [lk_ok] in OK1.
  apply andb_true_iff in OK1. destruct OK1 as [_ PAY].
  destruct (lk_owed (link_of s (client_of pS ++ u))) as [o|] eqn:EO; [|discriminate PAY].
  assert (W2 : 1 <= waiting (link_of s (client_of pS ++ u))) by (unfold waiting; rewrite EO; lia).
  rewrite asked_app, app_length in W1.
  assert (AU : length (asked s (X ++ u)) <= S (length sent)).
  { rewrite ON in AR. rewrite EU in AR. rewrite app_assoc, asked_app in AR. apply prefix_length in AR.
    rewrite rcalls_length, !app_length in AR. cbn [length] in AR. lia. }
  rewrite asked_app, app_length in AU.
  assert (SX0 : stays s (X ++ [])) by (rewrite app_nil_r; exact HX).
  destruct (part_counts pS sent read s n (X ++ []) PS SS CC SX0 (FP [] w eq_refl)) as (_ & _ & _ & W3).
  rewrite !app_nil_r, <- TS, LN in W3.
  assert (LU : length (asked s u) = 1) by lia.
  destruct (rcalls_one msg) as [r ER].
  assert (EA : asked s (X ++ u) = flat_map rcalls sent ++ [r]).
  { rewrite ON, EU, app_assoc, asked_app, flat_map_app in AR. cbn [flat_map] in AR. rewrite ER in AR. cbn [app] in AR.
    apply prefix_snoc.
    - eapply prefix_trans; [apply prefix_app|]. exact AR.
    - rewrite rcalls_length, asked_app, app_length. lia. }
  assert (RU : asked s u = [r]).
  { unfold on_connection in AS. fold X in AS. rewrite (until_id s X HX) in AS.
    rewrite asked_app in EA.
    assert (Q : asked s X = flat_map rcalls sent) by (apply prefix_eq; [exact AS|rewrite rcalls_length; lia]).
    rewrite Q in EA. apply app_inv_head in EA. exact EA. }
  destruct (split_asked s u r RU) as (w1 & w2 & EU2 & Q1 & Q2).
  assert (U1' := U1). rewrite EU2, answers_app in U1'. apply app_eq_nil in U1'. destruct U1' as [A1 A2].
  assert (A2' : answers s w2 = []) by exact A2.
  assert (STU' := STU). rewrite EU2 in STU'. apply Forall_app in STU'. destruct STU' as [ST1 ST2].
  assert (ST3 : stays s w2) by (inversion ST2; assumption).
  assert (SX1 : stays s (X ++ w1)) by (apply Forall_app; split; assumption).
  destruct (part_counts pS sent _ s n (X ++ w1) PS SS CC SX1
              (FP w1 (FAsked s r :: w2 ++ FAnswer s a :: w3' ++ w4) ltac:(rewrite WU, EU2, <- app_assoc; reflexivity)))
    as (O5 & _ & _ & W5).
  rewrite answers_app, A1, app_nil_r, <- TS, LN, asked_app, Q1, app_nil_r in W5.
  assert (CU1 : firstn (S n) (client_of pS) ++ X ++ w1 = client_of pS ++ w1).
  { rewrite app_assoc. rewrite <- SPL. reflexivity. }
  rewrite CU1 in O5, W5.
  assert (CPS : client_of pS = client_of p ++ w0) by (unfold pS; rewrite client_app, client_ac; reflexivity).
  destruct DB as [later DB]. cbn [map stream flat_map] in DB. rewrite app_nil_r in DB.
  exists r, w1, w2, a, (w3' ++ w4), o, later.
  split; [exact ER|]. split; [rewrite WU, EU2, <- app_assoc; reflexivity|]. split; [symmetry; exact DB|].
  split; [rewrite app_assoc, <- CPS; apply waiting_idle; [exact O5|lia]|].
  split; [repeat split; assumption|].
  split; [rewrite app_assoc, <- CPS; rewrite EU2 in EO; exact EO|]. split; [exact PAY|].
  intros LT sent' read' s' n' SR' CD'.
  assert (EP : p ++ map AC w0 ++ AG (GSend msg true) :: map AC w ++ [AG (GRead t (Some d))] = pR).
  { unfold pR, pS. rewrite <- app_assoc. reflexivity. }
  rewrite EP in *. rewrite SR in SR'. injection SR' as <- <-. rewrite CD in CD'. injection CD' as <- <-.
  rewrite TB, map_app, stream_app, !app_length, LN. split; [|reflexivity].
  rewrite LT, app_nil_r in DB. rewrite RD. f_equal. rewrite <- DB. symmetry. apply app_nil_r.
Qed.

(** ** What is owed *)
Lemma quiet_cons s e w : quiet s (e :: w) -> quiet s [e] /\ quiet s w.
Proof.
  intros (A & B & C). change (e :: w) with ([e] ++ w) in A, B. rewrite asked_app in A. rewrite answers_app in B.
  apply app_eq_nil in A. apply app_eq_nil in B. inversion C as [|? ? C1 C2]. subst.
  repeat split; try tauto. constructor; [assumption|constructor].
Qed.
Lemma quiet_step s e x : quiet s [e] -> lk_open x = true ->
  link_step s x e =
    match e with
    | FGot (DVirtual k _) => if N.eqb (lk_armed x) k && is_virtual_key k then link_step s x e else x
    | FGot (DNextKeyInfo _ _ _) => if lk_info x then link_step s x e else x
    | FSent (SConfig _) => link_step s x e
    | _ => x
    end.
Proof.
  intros (A & B & C) O. unfold asked in A. unfold answers in B. cbn [flat_map] in A, B.
  inversion C as [|? ? C1 _]. subst.
  destruct e as [| | |[]|s'|s' m0|[]|s' m0| | |s'|]; try reflexivity; cbn [link_step closes app] in *.
  - rewrite O. cbn [andb]. destruct ((lk_armed x =? k)%N && is_virtual_key k); reflexivity.
  - rewrite O. cbn [andb]. destruct (lk_info x); reflexivity.
  - rewrite O. cbn [negb]. rewrite andb_false_r. reflexivity.
  - destruct (s' =? s)%N; [discriminate A|reflexivity].
  - destruct (s' =? s)%N; [discriminate B|reflexivity].
  - rewrite C1. reflexivity.
  - discriminate C1.
Qed.

Lemma quiet_nothing s w : forall x, quiet s w -> lk_open x = true -> lk_armed x = 0%N -> lk_info x = false ->
  lk_owed (fold_left (link_step s) w x) = lk_owed x.
Proof.
  induction w as [|e w IH]; intros x Q O A F; [reflexivity|].
  destruct (quiet_cons s e w Q) as [Q1 Q2]. cbn [fold_left]. rewrite (quiet_step s e x Q1 O).
  destruct e as [| | |[|k st|]| | |[]| | | | |]; try (apply IH; assumption).
  - rewrite A. destruct (N.eqb_spec 0 k) as [E0|E0]; [|apply IH; assumption]. rewrite <- E0. apply IH; assumption.
  - rewrite F. apply IH; assumption.
  - rewrite IH; [reflexivity|assumption..].
Qed.
Lemma quiet_armed s k w : forall x, is_virtual_key k = true -> quiet s w -> lk_open x = true -> lk_armed x = k ->
  lk_info x = false -> lk_owed x = None ->
  forall o, lk_owed (fold_left (link_step s) w x) = Some o ->
  o = OState k /\ exists w1 st w2, w = w1 ++ FGot (DVirtual k st) :: w2.
Proof.
  intros x VK. revert x. induction w as [|e w IH]; intros x Q O A F W o H; [cbn in H; congruence|].
  destruct (quiet_cons s e w Q) as [Q1 Q2]. cbn [fold_left] in H. rewrite (quiet_step s e x Q1 O) in H.
  assert (R : forall y, lk_open y = true -> lk_armed y = k -> lk_info y = false -> lk_owed y = None ->
              lk_owed (fold_left (link_step s) w y) = Some o ->
              o = OState k /\ exists w1 st w2, e :: w = w1 ++ FGot (DVirtual k st) :: w2).
  { intros y O' A' F' W' H'. destruct (IH y Q2 O' A' F' W' o H') as (E & w1 & st & w2 & ->).
    split; [exact E|]. exists (e :: w1), st, w2. reflexivity. }
  destruct e as [| | |[|k' st|]| | |[]| | | | |]; try (apply (R x); assumption).
  - rewrite A in H. destruct (N.eqb_spec k k') as [E0|E0]; [|apply (R x); assumption].
    subst k'. rewrite VK in H. cbn [andb link_step] in H. rewrite O, A, N.eqb_refl, VK in H. cbn [andb] in H.
    rewrite quiet_nothing in H; [|assumption|reflexivity|reflexivity|exact F]. cbn [lk_owed] in H. injection H as <-.
    split; [reflexivity|]. exists [], st, w. reflexivity.
  - rewrite F in H. apply (R x); assumption.
  - cbn [link_step] in H. apply (R _) in H; assumption.
Qed.
Lemma quiet_info s w : forall x, quiet s w -> lk_open x = true -> lk_armed x = 0%N ->
  lk_info x = true -> lk_owed x = None ->
  forall o, lk_owed (fold_left (link_step s) w x) = Some o ->
  o = OInfo /\ exists w1 k n i w2, w = w1 ++ FGot (DNextKeyInfo k n i) :: w2.
Proof.
  induction w as [|e w IH]; intros x Q O A F W o H; [cbn in H; congruence|].
  destruct (quiet_cons s e w Q) as [Q1 Q2]. cbn [fold_left] in H. rewrite (quiet_step s e x Q1 O) in H.
  assert (R : forall y, lk_open y = true -> lk_armed y = 0%N -> lk_info y = true -> lk_owed y = None ->
              lk_owed (fold_left (link_step s) w y) = Some o ->
              o = OInfo /\ exists w1 k n i w2, e :: w = w1 ++ FGot (DNextKeyInfo k n i) :: w2).
  { intros y O' A' F' W' H'. destruct (IH y Q2 O' A' F' W' o H') as (E & w1 & k & n & i & w2 & ->).
    split; [exact E|]. exists (e :: w1), k, n, i, w2. reflexivity. }
  destruct e as [| | |[|k' st|k' nm id]| | |[]| | | | |]; try (apply (R x); assumption).
  - rewrite A in H. destruct (N.eqb_spec 0 k') as [E0|E0]; [|apply (R x); assumption].
    subst k'. apply (R x); assumption.
  - rewrite F in H. cbn [link_step] in H. rewrite O, F in H. cbn [andb] in H.
    rewrite quiet_nothing in H; [|assumption|reflexivity|exact A|reflexivity]. cbn [lk_owed] in H. injection H as <-.
    split; [reflexivity|]. exists [], k', nm, id, w. reflexivity.
  - cbn [link_step] in H. apply (R _) in H; assumption.
Qed.

(** What is owed for a request which came when nothing was left to be answered. *)
Lemma owed_for s t r w o : idle (link_of s t) -> quiet s w ->
  lk_owed (link_of s (t ++ FAsked s r :: w)) = Some o ->
  match asks_for (lk_names (link_of s t)) r, r with
  | Some o', _ => o = o'
  | None, QNotify n => o = OState (named (lk_names (link_of s t)) n) /\
      exists w1 st w2, w = w1 ++ FGot (DVirtual (named (lk_names (link_of s t)) n) st) :: w2
  | None, _ => o = OInfo /\ exists w1 k n i w2, w = w1 ++ FGot (DNextKeyInfo k n i) :: w2
  end.
Proof.
  intros (A & B & C & D) Q H. rewrite link_app in H. cbn [fold_left link_step] in H. rewrite N.eqb_refl in H.
  set (x := link_of s t) in *.
  assert (P : forall o', asks_for (lk_names x) r = Some o' -> match r with QNextKey => False | _ => True end ->
    match r with QNotify n => named (lk_names x) n = 0%N | _ => True end -> o = o').
  { intros o' E1 E2 E3. rewrite quiet_nothing in H; [|exact Q|exact A| |].
    - cbn [lk_owed] in H. congruence.
    - cbn [lk_armed]. destruct r; try exact C. rewrite E3. exact C.
    - cbn [lk_info]. destruct r; try exact D. destruct E2. }
  destruct r; cbn [asks_for] in *; try (apply P; [reflexivity|exact I|exact I]).
  - destruct (N.eqb_spec (named (lk_names x) name) 0) as [E0|E0].
    + apply P; [reflexivity|exact I|exact E0].
    + destruct (named_virtual (lk_names x) name) as [V|V]; [contradiction|].
      eapply quiet_armed in H; [exact H|exact V|exact Q|exact A|reflexivity|exact D|reflexivity].
  - eapply quiet_info in H; [exact H|exact Q|exact A|exact C|reflexivity|reflexivity].
Qed.

Lemma virtual_is_key k : is_virtual_key k = true -> is_key k.
Proof.
  unfold is_virtual_key, in_range, is_key. intro H. apply andb_true_iff in H. destruct H as [_ H]. apply N.leb_le in H.
  eapply N.le_lt_trans; [exact H|]. reflexivity.
Qed.

(** ** keymapperctl *)
Variable connects : nat -> bool.
Variable sends : nat -> bool.
Variable incoming : nat -> option bytes.
Variable absolute : text -> option text.

(** The log [mm] which follows [p] is an exchange of the request [r] and the answer [a]. *)
Definition answered (p mm : log) (s : N) (r : rcall) (a : amsg) (v1 v2 v3 : trace) : Prop :=
  client_of mm = v1 ++ FAsked s r :: v2 ++ FAnswer s a :: v3 /\
  idle (link_of s (client_of p ++ v1)) /\ quiet s v2 /\
  exists o, lk_owed (link_of s (client_of p ++ v1 ++ FAsked s r :: v2)) = Some o /\ pays o a = true.

Lemma answer_fits s t a o : lk_owed (link_of s t) = Some o -> prefix t (client_of L) -> pays o a = true ->
  (forall x, a <> ANextKeyInfo x) -> exists k st, a = AVirtual k st /\ is_key k.
Proof.
  intros H P PAY N. destruct a as [k st|x]; [|destruct (N x eq_refl)]. exists k, st. split; [reflexivity|].
  destruct (fair_of s t (ok_prefix s t P)) as [_ F].
  assert (Z : is_key 0%N) by reflexivity.
  destruct o as [k'| |]; cbn [pays] in PAY; [| |discriminate PAY]; apply andb_true_iff in PAY; destruct PAY as [PAY _];
    apply N.eqb_eq in PAY; subst k; [|exact Z].
  destruct (F k' H) as [->|V]; [exact Z|]. apply virtual_is_key. exact V.
Qed.

Lemma exchange_trace msg t c r x c' : exchange sends incoming msg t c = (r, x, c') ->
  (sends (g_sends c) = false /\ r = RFailed /\ g_buf c' = g_buf c /\ g_trace c' = g_trace c ++ [GSend msg false]) \/
  (sends (g_sends c) = true /\ r = RFailed /\ exists b, g_trace c' = g_trace c ++ [GSend msg true; GRead t b]) \/
  (sends (g_sends c) = true /\ exists d,
     g_trace c' = g_trace c ++ [GSend msg true; GRead t (Some d)] /\
     let y := read_messages read_answer (g_buf c) [KData d] in
     rr_ok y = Some true /\ g_buf c' = rr_buf y /\
     ((rr_handled y = [] /\ r = RTimeout /\ x = None) \/
      (exists k st, last_of (rr_handled y) = Some (k, st) /\ r = RYes /\ x = Some st))).
Proof.
  unfold exchange, ctl_send, read_state, ctl_read. destruct (sends (g_sends c)) eqn:OKS; cbn [g_reads g_buf k_emit g_trace].
  2:{ intro H. injection H as <- <- <-. left. auto. }
  destruct (match t with Some n => (n <? 0)%Z | None => false end).
  { intro H. injection H as <- <- <-. right. left. split; [reflexivity|]. split; [reflexivity|]. exists None.
    cbn [k_emit g_trace]. rewrite <- app_assoc. reflexivity. }
  destruct (incoming (g_reads c)) as [d|].
  2:{ assert (Q : rr_ok (read_messages read_answer (g_buf c) [KError]) = Some false).
      { unfold read_messages, recv_all. cbn [pending_bytes fold_right recv_loop]. rewrite Nat.eqb_refl.
        set (n := length (g_buf c)). assert (Q : exists j, n + 1024 - n = S j) by (exists 1023; lia).
        destruct Q as [j ->]. reflexivity. }
      rewrite Q. intro H. injection H as <- <- <-. right. left. split; [reflexivity|]. split; [reflexivity|]. eexists.
      cbn [k_emit g_trace]. rewrite <- app_assoc. reflexivity. }
  set (y := read_messages read_answer (g_buf c) [KData d]).
  destruct (rr_ok y) as [[|]|] eqn:RO.
  2,3: intro H; injection H as <- <- <-; right; left; (split; [reflexivity|]); (split; [reflexivity|]); eexists;
       cbn [k_emit g_trace]; rewrite <- app_assoc; reflexivity.
  intro H. right. right. split; [reflexivity|]. exists d.
  destruct (last_of (rr_handled y)) as [[k st]|] eqn:LO; injection H as <- <- <-; cbn [k_emit g_trace g_buf];
    (split; [rewrite <- app_assoc; reflexivity|]); (split; [exact RO|]); (split; [reflexivity|]).
  - right. exists k, st. auto.
  - left. unfold last_of in LO. destruct (rev (rr_handled y)) eqn:RV; [|discriminate LO].
    assert (HN : rr_handled y = []) by (rewrite <- (rev_involutive (rr_handled y)), RV; reflexivity).
    split; [exact HN|auto].
Qed.

Lemma last_of_one {A} (x : A) : last_of [x] = Some x.
Proof. reflexivity. Qed.

(** A request which was answered: the answer is its own, and nothing is left over. *)
Lemma exchange_yes p m tail msg t c x c' h :
  L = p ++ m ++ tail -> settled p -> ctl_of p = g_trace c -> session_of (ctl_of p) <> None -> g_buf c = [] ->
  msg <> RNextKey -> exchange sends incoming msg t c = (RYes, x, c') ->
  g_trace c ++ ctl_of m = g_trace c' ++ h ->
  exists mm m' s r v1 v2 k st v3, m = mm ++ m' /\ ctl_of m' = h /\ ctl_of (p ++ mm) = g_trace c' /\
    settled (p ++ mm) /\ g_buf c' = [] /\ session_of (ctl_of (p ++ mm)) <> None /\
    x = Some (state_code st) /\ rcalls msg = [r] /\ answered p mm s r (AVirtual k st) v1 v2 v3.
Proof.
  intros EL ST CP SE BU NK EX H.
  destruct (exchange_trace _ _ _ _ _ _ EX) as [(_ & Q & _)|[(_ & Q & _)|(_ & d & TR & RO & BF & [(_ & Q & _)|(k & st & LO & _ & EX')])]];
    try discriminate Q.
  subst x. rewrite TR, <- app_assoc in H. apply app_inv_head in H. cbn [app] in H.
  destruct (session_of (ctl_of p)) as [[sent read]|] eqn:SO; [|destruct (SE eq_refl)].
  destruct (at_client (connected (ctl_of p))) as [s n] eqn:AC0.
  destruct (send_read p m tail msg t d h sent read s n EL ST SO AC0 H) as (w0 & w & m' & EM & EH & [D|D]).
  { exfalso. rewrite D, BU in LO. vm_compute in LO. discriminate LO. }
  destruct D as (r & w1 & w2 & a & w3 & o & later & ER & EW & ED & ID & QU & OW & PAY & SET).
  set (mm := map AC w0 ++ AG (GSend msg true) :: map AC w ++ [AG (GRead t (Some d))]) in *.
  assert (MM : m = mm ++ m').
  { rewrite EM. unfold mm. rewrite <- app_assoc. cbn [app]. rewrite <- app_assoc. reflexivity. }
  assert (CMM : client_of mm = (w0 ++ w1) ++ FAsked s r :: w2 ++ FAnswer s a :: w3).
  { unfold mm. rewrite client_app, client_ac, <- app_assoc. f_equal. cbn [client_of flat_map app].
    change (flat_map _ (map AC w ++ [AG (GRead t (Some d))])) with (client_of (map AC w ++ [AG (GRead t (Some d))])).
    rewrite client_app, client_ac. cbn. rewrite app_nil_r. exact EW. }
  assert (GMM : ctl_of mm = [GSend msg true; GRead t (Some d)]).
  { unfold mm. rewrite ctl_app, ctl_ac. cbn [ctl_of flat_map app]. f_equal.
    change (flat_map _ (map AC w ++ [AG (GRead t (Some d))])) with (ctl_of (map AC w ++ [AG (GRead t (Some d))])).
    rewrite ctl_app, ctl_ac. reflexivity. }
  assert (PT : prefix (client_of p ++ w0 ++ w1 ++ FAsked s r :: w2) (client_of L)).
  { rewrite EL, MM, !client_app, CMM. exists ((FAnswer s a :: w3) ++ client_of m' ++ client_of tail).
    rewrite <- !app_assoc. cbn [app]. rewrite <- !app_assoc. reflexivity. }
  assert (NI : forall y, a <> ANextKeyInfo y).
  { intros y ->. assert (OF := OW).
    replace (client_of p ++ w0 ++ w1 ++ FAsked s r :: w2) with ((client_of p ++ w0 ++ w1) ++ FAsked s r :: w2) in OF
      by (rewrite <- !app_assoc; reflexivity).
    apply (owed_for s _ r w2 o ID QU) in OF.
    assert (OI : o = OInfo) by (destruct o; try discriminate PAY; reflexivity).
    destruct msg; cbn [rcalls] in ER; try (injection ER as <-); try (destruct (NK eq_refl));
      cbn [asks_for] in OF; try (rewrite OI in OF; discriminate OF).
    destruct (N.eqb _ 0); [rewrite OI in OF; discriminate OF|]. destruct OF as [OF _]. rewrite OI in OF. discriminate OF. }
  destruct (answer_fits s _ a o OW PT PAY NI) as (k' & st' & EA & KEY). subst a.
  assert (SHO : short (write_amsg (AVirtual k' st'))) by reflexivity.
  destruct (read_one read_answer _ _ d later SHO (answer_decodes k' st' KEY) ED) as (_ & [(R1 & _)|(R1 & R2 & R3)]).
  { rewrite BU, R1 in LO. discriminate LO. }
  rewrite BU, R1, last_of_one in LO. injection LO as <- <-.
  exists mm, m', s, r, (w0 ++ w1), w2, k', st', w3.
  split; [exact MM|]. split; [exact EH|]. split; [rewrite ctl_app, CP, GMM, TR; reflexivity|].
  split; [exact (SET R3)|]. split; [rewrite BF, BU; exact R2|].
  split; [rewrite ctl_app, GMM, session_app, SO; discriminate|].
  split; [reflexivity|]. split; [exact ER|]. split; [exact CMM|].
  split; [exact ID|]. split; [exact QU|]. exists o. split; [|exact PAY].
  rewrite <- app_assoc. exact OW.
Qed.

Lemma short_text t : short (write_amsg (ANextKeyInfo t)) -> short t.
Proof. unfold short. cbn [write_amsg]. unfold write_string. rewrite !app_length. lia. Qed.

Lemma next_trace t c r c' : next_key_info sends incoming t c = (r, c') ->
  (r = RFailed /\ exists es, g_trace c' = g_trace c ++ es /\ Forall (fun e => match e with GBegin _ | GEnd _ _ | GConnect _ => False | _ => True end) es) \/
  (exists d, let y := read_messages read_key_info (g_buf c) [KData d] in
     rr_ok y = Some true /\ g_buf c' = rr_buf y /\
     ((r = RTimeout /\ g_trace c' = g_trace c ++ [GSend RNextKey true; GRead t (Some d)]) \/
      (exists x, last_of (rr_handled y) = Some x /\ r = RYes /\
         g_trace c' = g_trace c ++ [GSend RNextKey true; GRead t (Some d); GPrint x]))).
Proof.
  unfold next_key_info, ctl_send, ctl_read. destruct (sends (g_sends c)) eqn:OKS; cbn [g_reads g_buf k_emit g_trace negb].
  2:{ intro H. injection H as <- <-. left. split; [reflexivity|]. eexists. split; [reflexivity|]. repeat constructor. }
  destruct (match t with Some n => (n <? 0)%Z | None => false end).
  { intro H. injection H as <- <-. left. split; [reflexivity|]. cbn [k_emit g_trace]. rewrite <- app_assoc.
    eexists. split; [reflexivity|]. repeat constructor. }
  destruct (incoming (g_reads c)) as [d|].
  2:{ assert (Q : rr_ok (read_messages read_key_info (g_buf c) [KError]) = Some false).
      { unfold read_messages, recv_all. cbn [pending_bytes fold_right recv_loop]. rewrite Nat.eqb_refl.
        set (n := length (g_buf c)). assert (Q : exists j, n + 1024 - n = S j) by (exists 1023; lia).
        destruct Q as [j ->]. reflexivity. }
      rewrite Q. intro H. injection H as <- <-. left. split; [reflexivity|]. cbn [k_emit g_trace]. rewrite <- app_assoc.
      eexists. split; [reflexivity|]. repeat constructor. }
  set (y := read_messages read_key_info (g_buf c) [KData d]).
  destruct (rr_ok y) as [[|]|] eqn:RO.
  2,3: intro H; injection H as <- <-; left; (split; [reflexivity|]); cbn [k_emit g_trace]; rewrite <- app_assoc;
       eexists; (split; [reflexivity|]); repeat constructor.
  intro H. right. exists d. split; [exact RO|].
  destruct (last_of (rr_handled y)) as [[|a x]|] eqn:LO; injection H as <- <-; cbn [k_emit g_trace g_buf];
    rewrite <- !app_assoc; (split; [reflexivity|]); auto.
  right. exists (a :: x). auto.
Qed.

Lemma next_yes p m tail t c c' h :
  L = p ++ m ++ tail -> settled p -> ctl_of p = g_trace c -> session_of (ctl_of p) <> None -> g_buf c = [] ->
  next_key_info sends incoming t c = (RYes, c') -> g_trace c ++ ctl_of m = g_trace c' ++ h ->
  exists mm m' s v1 v2 x v3, m = mm ++ m' /\ ctl_of m' = GPrint x :: h /\ ctl_of (p ++ mm) ++ [GPrint x] = g_trace c' /\
    settled (p ++ mm) /\ g_buf c' = [] /\ session_of (ctl_of (p ++ mm)) <> None /\
    answered p mm s QNextKey (ANextKeyInfo x) v1 v2 v3.
Proof.
  intros EL ST CP SE BU EX H.
  destruct (next_trace _ _ _ _ EX) as [(Q & _)|(d & RO & BF & [(Q & _)|(x & LO & _ & TR)])]; try discriminate Q.
  rewrite TR, <- app_assoc in H. apply app_inv_head in H. cbn [app] in H.
  destruct (session_of (ctl_of p)) as [[sent read]|] eqn:SO; [|destruct (SE eq_refl)].
  destruct (at_client (connected (ctl_of p))) as [s n] eqn:AC0.
  destruct (send_read p m tail RNextKey t d _ sent read s n EL ST SO AC0 H) as (w0 & w & m' & EM & EH & [D|D]).
  { exfalso. rewrite D, BU in LO. vm_compute in LO. discriminate LO. }
  destruct D as (r & w1 & w2 & a & w3 & o & later & ER & EW & ED & ID & QU & OW & PAY & SET).
  injection ER as <-.
  set (mm := map AC w0 ++ AG (GSend RNextKey true) :: map AC w ++ [AG (GRead t (Some d))]) in *.
  assert (MM : m = mm ++ m').
  { rewrite EM. unfold mm. rewrite <- app_assoc. cbn [app]. rewrite <- app_assoc. reflexivity. }
  assert (CMM : client_of mm = (w0 ++ w1) ++ FAsked s QNextKey :: w2 ++ FAnswer s a :: w3).
  { unfold mm. rewrite client_app, client_ac, <- app_assoc. f_equal. cbn [client_of flat_map app].
    change (flat_map _ (map AC w ++ [AG (GRead t (Some d))])) with (client_of (map AC w ++ [AG (GRead t (Some d))])).
    rewrite client_app, client_ac. cbn. rewrite app_nil_r. exact EW. }
  assert (GMM : ctl_of mm = [GSend RNextKey true; GRead t (Some d)]).
  { unfold mm. rewrite ctl_app, ctl_ac. cbn [ctl_of flat_map app]. f_equal.
    change (flat_map _ (map AC w ++ [AG (GRead t (Some d))])) with (ctl_of (map AC w ++ [AG (GRead t (Some d))])).
    rewrite ctl_app, ctl_ac. reflexivity. }
  assert (IN : In (FAnswer s a) (client_of L)).
  { rewrite EL, MM, !client_app, CMM, !in_app_iff. right. left. left. right. right. rewrite in_app_iff. right. left. reflexivity. }
  assert (NI : exists y, a = ANextKeyInfo y).
  { assert (OF := OW).
    replace (client_of p ++ w0 ++ w1 ++ FAsked s QNextKey :: w2) with ((client_of p ++ w0 ++ w1) ++ FAsked s QNextKey :: w2) in OF
      by (rewrite <- !app_assoc; reflexivity).
    apply (owed_for s _ _ w2 o ID QU) in OF. cbn [asks_for] in OF. destruct OF as [-> _].
    destruct a; [discriminate PAY|eauto]. }
  destruct NI as [y ->]. pose proof (SHORT s y IN) as SHO.
  destruct (read_one read_key_info _ _ d later SHO (key_info_decodes y (short_text y SHO)) ED) as (_ & [(R1 & _)|(R1 & R2 & R3)]).
  { rewrite BU, R1 in LO. discriminate LO. }
  rewrite BU, R1, last_of_one in LO. injection LO as <-.
  exists mm, m', s, (w0 ++ w1), w2, y, w3.
  split; [exact MM|]. split; [exact EH|]. split; [rewrite ctl_app, CP, GMM, TR, <- app_assoc; reflexivity|].
  split; [exact (SET R3)|]. split; [rewrite BF, BU; exact R2|].
  split; [rewrite ctl_app, GMM, session_app, SO; discriminate|].
  split; [exact CMM|]. split; [exact ID|]. split; [exact QU|]. exists o. split; [|exact PAY].
  rewrite <- app_assoc. exact OW.
Qed.

Lemma exchange_result msg t c r x c' : exchange sends incoming msg t c = (r, x, c') -> r = RYes \/ r = RFailed \/ r = RTimeout.
Proof.
  intro H. destruct (exchange_trace _ _ _ _ _ _ H) as [(_ & Q & _)|[(_ & Q & _)|(_ & d & _ & _ & _ & [(_ & Q & _)|(k & st & _ & Q & _)])]]; auto.
Qed.
Lemma instance_exchange n t c :
  (let '(ok, c1) := ctl_send sends (RInstance n) c in
   if ok then let '(r, _, c2) := read_state incoming t (k_id n c1) in (r, c2) else (RFailed, c1)) =
  (let '(r, _, c2) := exchange sends incoming (RInstance n) t c in (r, if sends (g_sends c) then k_id n c2 else c2)).
Proof.
  unfold exchange. destruct (ctl_send sends (RInstance n) c) as [ok c1] eqn:ES.
  assert (EO : ok = sends (g_sends c)) by (unfold ctl_send in ES; injection ES as <- _; reflexivity). rewrite <- EO.
  destruct ok; [|reflexivity]. unfold read_state, ctl_read.
  destruct (match t with Some n => (n <? 0)%Z | None => false end); [reflexivity|]. cbn [g_reads g_buf k_id g_trace g_id g_connects g_sends].
  destruct (match rr_ok _ with Some true => Some (rr_handled _) | _ => None end) as [l|]; [|reflexivity].
  destruct (last_of l) as [[k st]|]; reflexivity.
Qed.

(** What is true when an operation ended. *)
Definition one (p mm : log) (r : rcall) (a : amsg) : Prop := exists s v1 v2 v3, answered p mm s r a v1 v2 v3.
Definition done (p m : log) (q : request) (r : result) : Prop :=
  match rq_type q with
  | QtWait | QtStdout | QtRestart => True
  | QtNextKey => exists x mm m', m = mm ++ m' /\ In (GPrint x) (ctl_of m) /\ one p mm QNextKey (ANextKeyInfo x)
  | QtWaitPressed | QtWaitReleased | QtWaitToggled =>
      exists m1 m' k st, m = m1 ++ m' /\ one p m1 (QGet (rq_string q)) (AVirtual k st) /\
      (match rq_type q with QtWaitPressed => st = Down | QtWaitReleased => st = Up | _ => False end \/
       match rq_type q with QtWaitPressed => st <> Down | QtWaitReleased => st <> Up | _ => True end /\
       exists m2 m3 k' st', m' = m2 ++ m3 /\ one (p ++ m1) m2 (QNotify (rq_string q)) (AVirtual k' st'))
  | QtConfig => absolute (rq_string q) = None /\ r = RNotFound \/
      exists c mm m' k st, call_of absolute q = Some c /\ m = mm ++ m' /\ one p mm c (AVirtual k st) /\ r = verdict (rq_type q) st
  | _ => exists c mm m' k st, call_of absolute q = Some c /\ m = mm ++ m' /\ one p mm c (AVirtual k st) /\ r = verdict (rq_type q) st
  end.

Definition firm (r : result) : Prop := r <> RFailed /\ r <> RTimeout.

Lemma is_state_eq st k : is_state (Some (state_code st)) k = kstate_eqb st k.
Proof. destruct st, k; reflexivity. Qed.

Lemma answered_one p mm s r a v1 v2 v3 : answered p mm s r a v1 v2 v3 -> one p mm r a.
Proof. intro H. exists s, v1, v2, v3. exact H. Qed.

Ltac use_exchange EX :=
  let Q := fresh "Q" in
  destruct (exchange_result _ _ _ _ _ _ EX) as [Q|[Q|Q]]; subst.

Lemma perform_done p m tail q last c r c' :
  L = p ++ m ++ tail -> settled p -> ctl_of p = g_trace c -> session_of (ctl_of p) <> None -> g_buf c = [] ->
  perform sends incoming absolute q last c = (r, c') -> g_trace c ++ ctl_of m = g_trace c' -> firm r \/ exchanges q = false ->
  settled (p ++ m) /\ g_buf c' = [] /\ session_of (ctl_of (p ++ m)) <> None /\ done p m q r.
Proof.
  intros EL ST CP SE BU PF TR FI.
  assert (PP : prefix (p ++ m) L) by (exists tail; rewrite EL, app_assoc; reflexivity).
  (* what follows the last answer does not matter *)
  assert (REST : forall mm m', m = mm ++ m' -> settled (p ++ mm) -> session_of (ctl_of (p ++ mm)) <> None ->
            session_of (ctl_of (p ++ mm) ++ ctl_of m') = session_of (ctl_of (p ++ mm)) ->
            connected (ctl_of m') = 0 -> settled (p ++ m) /\ session_of (ctl_of (p ++ m)) <> None).
  { intros mm m' -> S1 S2 S3 S4. rewrite app_assoc in *. split.
    - apply settled_more; [exact S1|exact PP|rewrite ctl_app; exact S3|rewrite ctl_app, connected_app, S4; lia].
    - rewrite ctl_app, S3. exact S2. }
  assert (SINGLE : forall msg f, (forall x, f RFailed x = RFailed) -> (forall x, f RTimeout x = RTimeout) ->
            msg <> RNextKey -> firm r ->
            forall c1 r0 x, exchange sends incoming msg (rq_timeout q) c = (r0, x, c1) -> r = f r0 x ->
            g_trace c1 = g_trace c' -> g_buf c' = g_buf c1 ->
            settled (p ++ m) /\ g_buf c' = [] /\ session_of (ctl_of (p ++ m)) <> None /\
            exists cc mm m' k st, rcalls msg = [cc] /\ m = mm ++ m' /\ one p mm cc (AVirtual k st) /\ r = f RYes (Some (state_code st))).
  { intros msg f F1 F2 NK [N1 N2] c1 r0 x EX ER T1 B1.
    destruct (exchange_result _ _ _ _ _ _ EX) as [Q|[Q|Q]]; subst r0;
      [|rewrite F1 in ER; contradiction|rewrite F2 in ER; contradiction].
    destruct (exchange_yes p m tail msg _ c x c1 [] EL ST CP SE BU NK EX) as
      (mm & m' & s & r1 & v1 & v2 & k & st & v3 & E1 & E2 & E3 & E4 & E5 & E6 & E7 & E8 & E9).
    { rewrite app_nil_r, T1. exact TR. }
    destruct (REST mm m' E1 E4 E6) as [R1 R2]; [rewrite E2, app_nil_r; reflexivity|rewrite E2; reflexivity|].
    split; [exact R1|]. split; [rewrite B1; exact E5|]. split; [exact R2|].
    exists r1, mm, m', k, st. split; [exact E8|]. split; [exact E1|]. split; [eapply answered_one; exact E9|].
    rewrite ER, E7. reflexivity. }
  assert (FIRM : exchanges q = true -> firm r) by (intro Q; destruct FI as [Q'|Q']; [exact Q'|congruence]).
  assert (NOTHING : ctl_of m = [] \/ (exists e, ctl_of m = [e] /\ (forall x, session_step x e = x) /\ connected [e] = 0) ->
            settled (p ++ m) /\ session_of (ctl_of (p ++ m)) <> None).
  { intros [Q|(e & Q & Q1 & Q2)].
    - apply (REST [] m); rewrite ?app_nil_r; auto; rewrite Q; [rewrite app_nil_r|]; reflexivity.
    - apply (REST [] m); rewrite ?app_nil_r; auto; rewrite Q; [|exact Q2].
      rewrite session_app. cbn [fold_left]. apply Q1. }
  assert (CHG : forall s st, rq_type q = s -> s = QtPress /\ st = Down \/ s = QtRelease /\ st = Up \/ s = QtToggle /\ st = Not ->
    (let '(r, x, c) := exchange sends incoming (RSet (rq_string q) st) (rq_timeout q) c in
     (match r with RYes => if is_state x Up || is_state x Down then RYes else RNotFound | _ => r end, c)) = (r, c') ->
    settled (p ++ m) /\ g_buf c' = [] /\ session_of (ctl_of (p ++ m)) <> None /\ done p m q r).
  { intros ty st ET SC PF'. destruct (exchange sends incoming (RSet (rq_string q) st) (rq_timeout q) c) as [[r0 x] c1] eqn:EX.
    injection PF' as ER <-.
    assert (XQ : exchanges q = true) by (unfold exchanges; rewrite ET; destruct SC as [[-> _]|[[-> _]|[-> _]]]; reflexivity).
    destruct (SINGLE (RSet (rq_string q) st) (fun r x => match r with RYes => if is_state x Up || is_state x Down then RYes else RNotFound | _ => r end))
      with (c1 := c1) (r0 := r0) (x := x) as (A1 & A2 & A3 & cc & mm & m' & k & st' & B1 & B2 & B3 & B4); auto; try discriminate.
    split; [exact A1|]. split; [exact A2|]. split; [exact A3|]. injection B1 as <-. unfold done, call_of. rewrite ET.
    rewrite !is_state_eq in B4.
    destruct SC as [[-> ->]|[[-> ->]|[-> ->]]]; eexists; exists mm, m', k, st'; (split; [reflexivity|]); (split; [exact B2|]);
      (split; [exact B3|]); rewrite B4; destruct st'; reflexivity. }
  assert (QRY : forall s y n, rq_type q = s -> s = QtIsPressed /\ y = Down /\ n = Up \/ s = QtIsReleased /\ y = Up /\ n = Down ->
    (let '(r, x, c) := exchange sends incoming (RGet (rq_string q)) (rq_timeout q) c in
     (match r with RYes => if is_state x y then RYes else if is_state x n then RNo else RNotFound | _ => r end, c)) = (r, c') ->
    settled (p ++ m) /\ g_buf c' = [] /\ session_of (ctl_of (p ++ m)) <> None /\ done p m q r).
  { intros ty y n ET SC PF'. destruct (exchange sends incoming (RGet (rq_string q)) (rq_timeout q) c) as [[r0 x] c1] eqn:EX.
    injection PF' as ER <-.
    assert (XQ : exchanges q = true) by (unfold exchanges; rewrite ET; destruct SC as [[-> _]|[-> _]]; reflexivity).
    destruct (SINGLE (RGet (rq_string q)) (fun r x => match r with RYes => if is_state x y then RYes else if is_state x n then RNo else RNotFound | _ => r end))
      with (c1 := c1) (r0 := r0) (x := x) as (A1 & A2 & A3 & cc & mm & m' & k & st' & B1 & B2 & B3 & B4); auto; try discriminate.
    split; [exact A1|]. split; [exact A2|]. split; [exact A3|]. injection B1 as <-. unfold done, call_of. rewrite ET.
    rewrite !is_state_eq in B4.
    destruct SC as [(-> & -> & ->)|(-> & -> & ->)]; eexists; exists mm, m', k, st'; (split; [reflexivity|]); (split; [exact B2|]);
      (split; [exact B3|]); rewrite B4; destruct st'; reflexivity. }
  assert (SMP : forall msg cc, exchanges q = true -> msg <> RNextKey -> rcalls msg = [cc] ->
    (let '(r, x, c) := exchange sends incoming msg (rq_timeout q) c in (to_result r x, c)) = (r, c') ->
    settled (p ++ m) /\ g_buf c' = [] /\ session_of (ctl_of (p ++ m)) <> None /\
    exists mm m' k st, m = mm ++ m' /\ one p mm cc (AVirtual k st) /\ r = if kstate_eqb st Down then RYes else RNo).
  { intros msg cc XQ NK RC PF'. destruct (exchange sends incoming msg (rq_timeout q) c) as [[r0 x] c1] eqn:EX.
    injection PF' as ER <-.
    destruct (SINGLE msg to_result) with (c1 := c1) (r0 := r0) (x := x) as (A1 & A2 & A3 & cc' & mm & m' & k & st' & B1 & B2 & B3 & B4); auto.
    split; [exact A1|]. split; [exact A2|]. split; [exact A3|]. rewrite RC in B1. injection B1 as <-.
    exists mm, m', k, st'. split; [exact B2|]. split; [exact B3|]. unfold to_result in B4. rewrite is_state_eq in B4. exact B4. }
  assert (WT : forall (there : option N -> bool) (good : kstate -> bool), (forall st, there (Some (state_code st)) = good st) -> exchanges q = true ->
    (let '(r, x, c) := exchange sends incoming (RGet (rq_string q)) (rq_timeout q) c in
     match r with
     | RYes => if there x then (RYes, c)
               else let '(r, _, c) := exchange sends incoming (RNotify (rq_string q)) (rq_timeout q) c in (r, c)
     | _ => (r, c)
     end) = (r, c') ->
    settled (p ++ m) /\ g_buf c' = [] /\ session_of (ctl_of (p ++ m)) <> None /\
    exists m1 m' k st, m = m1 ++ m' /\ one p m1 (QGet (rq_string q)) (AVirtual k st) /\
      (good st = true \/ good st = false /\
       exists m2 m3 k' st', m' = m2 ++ m3 /\ one (p ++ m1) m2 (QNotify (rq_string q)) (AVirtual k' st'))).
  { intros there good TG XQ PF'. destruct (FIRM XQ) as [N1 N2].
    destruct (exchange sends incoming (RGet (rq_string q)) (rq_timeout q) c) as [[r0 x] c1] eqn:EX.
    destruct (exchange_result _ _ _ _ _ _ EX) as [Q|[Q|Q]]; subst r0;
      [|injection PF' as <- _; destruct (N1 eq_refl)|injection PF' as <- _; destruct (N2 eq_refl)].
    assert (TRH : exists h, g_trace c ++ ctl_of m = g_trace c1 ++ h).
    { destruct (there x); [injection PF' as _ ->; exists []; rewrite app_nil_r; exact TR|].
      destruct (exchange sends incoming (RNotify (rq_string q)) (rq_timeout q) c1) as [[r1 x1] c2] eqn:EX2. injection PF' as -> ->.
      destruct (exchange_trace _ _ _ _ _ _ EX2) as [(_ & _ & _ & Q)|[(_ & _ & b & Q)|(_ & d & Q & _)]];
        rewrite Q in TR; eexists; exact TR. }
    destruct TRH as [h TRH].
    destruct (exchange_yes p m tail (RGet (rq_string q)) _ c x c1 h EL ST CP SE BU ltac:(discriminate) EX TRH) as
      (mm & m' & s & r1 & v1 & v2 & k & st & v3 & E1 & E2 & E3 & E4 & E5 & E6 & E7 & E8 & E9).
    injection E8 as <-. subst x. rewrite TG in PF'. destruct (good st) eqn:GS.
    - injection PF' as _ ->. assert (HN : h = []).
      { rewrite TR in TRH. rewrite <- (app_nil_r (g_trace c')) in TRH at 1. apply app_inv_head in TRH. auto. }
      subst h. rewrite HN in *. destruct (REST mm m' E1 E4 E6) as [R1 R2]; [rewrite HN, app_nil_r; reflexivity|rewrite HN; reflexivity|].
      split; [exact R1|]. split; [exact E5|]. split; [exact R2|].
      exists mm, m', k, st. split; [exact E1|]. split; [eapply answered_one; exact E9|]. left. exact GS.
    - destruct (exchange sends incoming (RNotify (rq_string q)) (rq_timeout q) c1) as [[r2 x2] c2] eqn:EX2. injection PF' as -> ->.
      destruct (exchange_result _ _ _ _ _ _ EX2) as [Q|[Q|Q]]; subst r; [|destruct (N1 eq_refl)|destruct (N2 eq_refl)].
      destruct (exchange_yes (p ++ mm) m' tail (RNotify (rq_string q)) (rq_timeout q) c1 x2 c' []) as
        (mm2 & m3 & s2 & r2 & v12 & v22 & k2 & st2 & v32 & F1 & F2 & F3 & F4 & F5 & F6 & F7 & F8 & F9);
        [|exact E4|exact E3|exact E6|exact E5|discriminate|exact EX2| |].
      { rewrite EL, E1, <- !app_assoc. reflexivity. }
      { rewrite app_nil_r, E2, <- TRH. exact TR. }
      injection F8 as <-.
      destruct (REST (mm ++ mm2) m3) as [R1 R2].
      { rewrite E1, F1, app_assoc. reflexivity. }
      { rewrite app_assoc. exact F4. }
      { rewrite app_assoc. exact F6. }
      { rewrite F2, app_nil_r. reflexivity. }
      { rewrite F2. reflexivity. }
      split; [exact R1|]. split; [exact F5|]. split; [exact R2|].
      exists mm, m', k, st. split; [exact E1|]. split; [eapply answered_one; exact E9|]. right. split; [exact GS|].
      exists mm2, m3, k2, st2. split; [exact F1|]. eapply answered_one. exact F9. }
  unfold perform in PF. destruct (rq_type q) eqn:ET.
  - eapply CHG; eauto.
  - eapply CHG; eauto.
  - eapply CHG; eauto 8.
  - eapply QRY; eauto.
  - eapply QRY; eauto.
  - destruct (WT (fun x => is_state x Down) (fun st => kstate_eqb st Down)) as (A1 & A2 & A3 & m1 & m' & k & st & B1 & B2 & B3); auto.
    { intro st. apply is_state_eq. } { unfold exchanges. rewrite ET. reflexivity. }
    split; [exact A1|]. split; [exact A2|]. split; [exact A3|]. unfold done. rewrite ET. exists m1, m', k, st.
    split; [exact B1|]. split; [exact B2|]. destruct B3 as [B3|[B3 B4]]; [left; destruct st; (reflexivity || discriminate B3)|right].
    split; [intros ->; discriminate B3|exact B4].
  - destruct (WT (fun x => is_state x Up) (fun st => kstate_eqb st Up)) as (A1 & A2 & A3 & m1 & m' & k & st & B1 & B2 & B3); auto.
    { intro st. apply is_state_eq. } { unfold exchanges. rewrite ET. reflexivity. }
    split; [exact A1|]. split; [exact A2|]. split; [exact A3|]. unfold done. rewrite ET. exists m1, m', k, st.
    split; [exact B1|]. split; [exact B2|]. destruct B3 as [B3|[B3 B4]]; [left; destruct st; (reflexivity || discriminate B3)|right].
    split; [intros ->; discriminate B3|exact B4].
  - destruct (WT (fun x => false) (fun st => false)) as (A1 & A2 & A3 & m1 & m' & k & st & B1 & B2 & B3); auto.
    { unfold exchanges. rewrite ET. reflexivity. }
    split; [exact A1|]. split; [exact A2|]. split; [exact A3|]. unfold done. rewrite ET. exists m1, m', k, st.
    split; [exact B1|]. split; [exact B2|]. destruct B3 as [B3|[B3 B4]]; [discriminate B3|right; auto].
  - injection PF as <- <-. cbn [k_emit g_trace g_buf] in *. apply app_inv_head in TR.
    destruct NOTHING as [R1 R2]; [right; eexists; split; [exact TR|split; [intro x; destruct x; reflexivity|reflexivity]]|].
    unfold done. rewrite ET. auto.
  - rewrite instance_exchange in PF. destruct (exchange sends incoming (RInstance (rq_string q)) (rq_timeout q) c) as [[r0 x] c1] eqn:EX.
    injection PF as ER EC.
    destruct (SINGLE (RInstance (rq_string q)) (fun r x => r)) with (c1 := c1) (r0 := r0) (x := x)
      as (A1 & A2 & A3 & cc & mm & m' & k & st' & B1 & B2 & B3 & B4); auto; try discriminate.
    { apply FIRM. unfold exchanges. rewrite ET. reflexivity. }
    { rewrite <- EC. destruct (sends (g_sends c)); reflexivity. }
    { rewrite <- EC. destruct (sends (g_sends c)); reflexivity. }
    split; [exact A1|]. split; [exact A2|]. split; [exact A3|]. injection B1 as <-. unfold done, call_of. rewrite ET.
    eexists. exists mm, m', k, st'. split; [reflexivity|]. split; [exact B2|]. split; [exact B3|]. rewrite B4. destruct st'; reflexivity.
  - injection PF as <- <-. rewrite <- (app_nil_r (g_trace c)) in TR at 2. apply app_inv_head in TR.
    destruct NOTHING as [R1 R2]; [left; exact TR|]. unfold done. rewrite ET. auto.
  - injection PF as <- <-. cbn [k_emit g_trace g_buf] in *. apply app_inv_head in TR.
    destruct NOTHING as [R1 R2]; [right; eexists; split; [exact TR|split; [intro x; destruct x; reflexivity|reflexivity]]|].
    unfold done. rewrite ET. auto.
  - assert (XQ : exchanges q = true) by (unfold exchanges; rewrite ET; reflexivity).
    destruct (absolute (rq_string q)) as [f|] eqn:AB.
    + destruct (SMP (RConfig f) (QConfig f) XQ ltac:(discriminate) eq_refl PF) as (A1 & A2 & A3 & mm & m' & k & st & B1 & B2 & B3).
      split; [exact A1|]. split; [exact A2|]. split; [exact A3|]. unfold done, call_of. rewrite ET, AB. right.
      eexists. exists mm, m', k, st. split; [reflexivity|]. split; [exact B1|]. split; [exact B2|]. rewrite B3. destruct st; reflexivity.
    + injection PF as <- <-. rewrite <- (app_nil_r (g_trace c)) in TR at 2. apply app_inv_head in TR.
      destruct NOTHING as [R1 R2]; [left; exact TR|]. unfold done. rewrite ET.
      split; [exact R1|]. split; [exact BU|]. split; [exact R2|]. left. auto.
  - assert (XQ : exchanges q = true) by (unfold exchanges; rewrite ET; reflexivity).
    destruct (FIRM XQ) as [N1 N2]. assert (RY : r = RYes).
    { destruct (next_trace _ _ _ _ PF) as [(Q & _)|(d & _ & _ & [(Q & _)|(x & _ & Q & _)])]; [destruct (N1 Q)|destruct (N2 Q)|exact Q]. }
    subst r. destruct (next_yes p m tail _ c c' [] EL ST CP SE BU PF) as (mm & m' & s & v1 & v2 & x & v3 & E1 & E2 & E3 & E4 & E5 & E6 & E7).
    { rewrite app_nil_r. exact TR. }
    destruct (REST mm m' E1 E4 E6) as [R1 R2].
    { rewrite E2, session_app. destruct (session_of (ctl_of (p ++ mm))) as [[]|]; reflexivity. }
    { rewrite E2. reflexivity. }
    split; [exact R1|]. split; [exact E5|]. split; [exact R2|]. unfold done. rewrite ET. exists x, mm, m'.
    split; [exact E1|]. split; [rewrite E1, ctl_app, E2; apply in_or_app; right; left; reflexivity|]. eapply answered_one. exact E7.
  - assert (XQ : exchanges q = true) by (unfold exchanges; rewrite ET; reflexivity).
    destruct (SMP (RInjectInput (rq_string q)) _ XQ ltac:(discriminate) eq_refl PF) as (A1 & A2 & A3 & mm & m' & k & st & B1 & B2 & B3).
    split; [exact A1|]. split; [exact A2|]. split; [exact A3|]. unfold done, call_of. rewrite ET.
    eexists. exists mm, m', k, st. split; [reflexivity|]. split; [exact B1|]. split; [exact B2|]. rewrite B3. destruct st; reflexivity.
  - assert (XQ : exchanges q = true) by (unfold exchanges; rewrite ET; reflexivity).
    destruct (SMP (RInjectOutput (rq_string q)) _ XQ ltac:(discriminate) eq_refl PF) as (A1 & A2 & A3 & mm & m' & k & st & B1 & B2 & B3).
    split; [exact A1|]. split; [exact A2|]. split; [exact A3|]. unfold done, call_of. rewrite ET.
    eexists. exists mm, m', k, st. split; [reflexivity|]. split; [exact B1|]. split; [exact B2|]. rewrite B3. destruct st; reflexivity.
  - assert (XQ : exchanges q = true) by (unfold exchanges; rewrite ET; reflexivity).
    destruct (SMP (RType (rq_string q)) _ XQ ltac:(discriminate) eq_refl PF) as (A1 & A2 & A3 & mm & m' & k & st & B1 & B2 & B3).
    split; [exact A1|]. split; [exact A2|]. split; [exact A3|]. unfold done, call_of. rewrite ET.
    eexists. exists mm, m', k, st. split; [reflexivity|]. split; [exact B1|]. split; [exact B2|]. rewrite B3. destruct st; reflexivity.
Qed.

(** ** The whole run of keymapperctl *)
Definition inner (e : geffect) : Prop := match e with GBegin _ | GEnd _ _ | GConnect _ => False | _ => True end.
Lemma exchange_inner msg t c r x c' : exchange sends incoming msg t c = (r, x, c') ->
  exists es, g_trace c' = g_trace c ++ es /\ Forall inner es.
Proof.
  intro H. destruct (exchange_trace _ _ _ _ _ _ H) as [(_ & _ & _ & Q)|[(_ & _ & b & Q)|(_ & d & Q & _)]];
    rewrite Q; eexists; (split; [reflexivity|]); repeat constructor.
Qed.
Lemma perform_inner q last c r c' : perform sends incoming absolute q last c = (r, c') ->
  exists es, g_trace c' = g_trace c ++ es /\ Forall inner es.
Proof.
  assert (R : forall c, exists es, g_trace c = g_trace c ++ es /\ Forall inner es).
  { intro c0. exists []. rewrite app_nil_r. split; [reflexivity|constructor]. }
  assert (X : forall msg t c r x c1, exchange sends incoming msg t c = (r, x, c1) -> exists es, g_trace c1 = g_trace c ++ es /\ Forall inner es).
  { intros. eapply exchange_inner. eassumption. }
  unfold perform. destruct (rq_type q);
    try (match goal with |- context [exchange _ _ ?m ?t c] => destruct (exchange sends incoming m t c) as [[r0 x] c1] eqn:EX end;
         apply X in EX; intro H; try (injection H as _ <-; exact EX)).
  1-3: destruct r0; try (injection H as _ <-; exact EX);
       try (match type of H with context [if ?b then _ else _] => destruct b; [injection H as _ <-; exact EX|] end);
       destruct (exchange sends incoming (RNotify (rq_string q)) (rq_timeout q) c1) as [[r1 x1] c2] eqn:EX2;
       apply X in EX2; injection H as _ <-; destruct EX as (e1 & Q1 & F1), EX2 as (e2 & Q2 & F2);
       exists (e1 ++ e2); rewrite Q2, Q1, app_assoc; (split; [reflexivity|apply Forall_app; auto]).
  - intro H. injection H as _ <-. eexists. split; [reflexivity|]. repeat constructor.
  - rewrite instance_exchange. destruct (exchange sends incoming (RInstance (rq_string q)) (rq_timeout q) c) as [[r0 x] c1] eqn:EX.
    apply X in EX. intro H. injection H as _ <-. destruct (sends (g_sends c)); exact EX.
  - intro H. injection H as _ <-. apply R.
  - intro H. injection H as _ <-. eexists. split; [reflexivity|]. repeat constructor.
  - destruct (absolute (rq_string q)) as [f|]; [|intro H; injection H as _ <-; apply R].
    destruct (exchange sends incoming (RConfig f) (rq_timeout q) c) as [[r0 x] c1] eqn:EX.
    apply X in EX. intro H. injection H as _ <-. exact EX.
  - intro H. destruct (next_trace _ _ _ _ H) as [(_ & Q)|(d & _ & _ & [(_ & Q)|(x & _ & _ & Q)])]; [exact Q| |];
      rewrite Q; eexists; (split; [reflexivity|]); repeat constructor.
Qed.
Lemma request_trace q last c r c' : make_request sends incoming absolute q last c = (r, c') ->
  exists es c1 c2, perform sends incoming absolute q last c1 = (r, c2) /\ c1 = k_emit (GBegin q) c /\ c' = k_emit (GEnd q r) c2 /\
    g_trace c2 = g_trace c1 ++ es /\ Forall inner es /\ g_trace c' = g_trace c ++ GBegin q :: es ++ [GEnd q r].
Proof.
  unfold make_request. destruct (perform sends incoming absolute q last (k_emit (GBegin q) c)) as [r0 c2] eqn:P.
  intro H. injection H as <- <-. destruct (perform_inner _ _ _ _ _ P) as (es & E & F).
  exists es, (k_emit (GBegin q) c), c2. repeat (split; [first [reflexivity|assumption]|]).
  cbn [k_emit g_trace] in *. rewrite E, <- !app_assoc. reflexivity.
Qed.

Inductive history : result -> ctl -> Prop :=
| H_first c : ctl_connect connects new_ctl = (true, c) -> history RFailed c
| H_connect r c ok c' : history r c -> ctl_connect connects c = (ok, c') -> history r c'
| H_request r c q r' c' : history r c -> make_request sends incoming absolute q r c = (r', c') -> history r' c'.

Lemma loop_history fuel : forall all rest r c, history r c ->
  exists r', history r' (snd (ctl_loop connects sends incoming absolute fuel all rest r c)).
Proof.
  induction fuel as [|f IH]; intros all rest r c H; [exists r; exact H|]. cbn [ctl_loop].
  destruct rest as [[|q l]|].
  - exists r. exact H.
  - assert (M : exists r', history r' (snd (let '(r, c) := make_request sends incoming absolute q r c in
                             ctl_loop connects sends incoming absolute f all (Some l) r c))).
    { destruct (make_request sends incoming absolute q r c) as [r1 c1] eqn:E. apply IH. eapply H_request; eassumption. }
    destruct (rq_type q); try exact M.
    destruct r; try (apply IH; exact H). destruct (plain_id (g_id c)); [apply IH; exact H|exists RFailed; exact H].
  - destruct r; try (apply IH; exact H). destruct (ctl_connect connects c) as [ok c1] eqn:E.
    assert (H1 : history RFailed c1) by (eapply H_connect; eassumption).
    destruct ok; [apply IH; exact H1|exists RFailed; exact H1].
Qed.
Lemma main_history atoi fuel args c : c = snd (ctl_main connects sends incoming absolute atoi fuel args) ->
  (exists r, history r c) \/ (forall q, ~ In (GBegin q) (g_trace c)).
Proof.
  intros ->. unfold ctl_main. destruct (interpret_commandline atoi args) as [all|]; [|right; intros q []].
  destruct fuel as [|f]; [right; intros q []|]. cbn [ctl_loop].
  destruct (ctl_connect connects new_ctl) as [ok c1] eqn:E. destruct ok.
  - left. apply loop_history. apply H_first. exact E.
  - right. unfold ctl_connect in E. injection E as _ <-. intros q [Q|[]]. discriminate Q.
Qed.

Lemma ctl_cut g h : forall p, ctl_of p = g ++ h -> exists a b, p = a ++ b /\ ctl_of a = g /\ ctl_of b = h.
Proof.
  induction g as [|e g IH]; intros p H; [exists [], p; auto|].
  cbn [app] in H. destruct (next_ctl p e _ H) as (w & p' & E & H'). destruct (IH p' H') as (a & b & -> & A & B).
  exists (map AC w ++ AG e :: a), b. rewrite E, <- app_assoc. split; [reflexivity|]. split; [|exact B].
  rewrite ctl_app, ctl_ac. cbn [ctl_of flat_map app]. f_equal. exact A.
Qed.

Lemma inner_calm es : Forall inner es -> forall b, fold_left undisturbed_step es b = b.
Proof.
  induction 1 as [|e es H F IH]; intro b; [reflexivity|]. cbn [fold_left]. rewrite IH.
  destruct e; try reflexivity; destruct H.
Qed.
Lemma undisturbed_app a b : undisturbed (a ++ b) = fold_left undisturbed_step b (undisturbed a).
Proof. unfold undisturbed. apply fold_left_app. Qed.

Lemma history_settled r c : history r c -> forall p tail, L = p ++ tail -> ctl_of p = g_trace c ->
  undisturbed (g_trace c) = true -> settled p /\ g_buf c = [] /\ session_of (g_trace c) <> None.
Proof.
  assert (CONN : forall g p tail, L = p ++ tail -> ctl_of p = g ++ [GConnect true] -> settled p).
  { intros g p tail EL CP. destruct (ctl_cut _ _ _ CP) as (a & b & -> & A & B).
    destruct (next_ctl b _ _ B) as (w & b' & -> & B'). rewrite app_assoc.
    apply settled_connect; [|exact B']. exists tail. rewrite EL, <- !app_assoc. reflexivity. }
  induction 1 as [c E|r c ok c' H IH E|r c q r' c' H IH E]; intros p tail EL CP UN.
  - unfold ctl_connect in E. destruct (connects _) eqn:CO; [|discriminate E]. injection E as <-. cbn in *.
    split; [eapply (CONN []); eassumption|]. split; [reflexivity|discriminate].
  - unfold ctl_connect in E. injection E as EO EC. rewrite <- EC in *. cbn [k_emit g_trace g_buf] in *. destruct (connects (g_connects c)).
    + split; [eapply CONN; eassumption|]. split; [reflexivity|]. rewrite session_app. discriminate.
    + rewrite undisturbed_app in UN. cbn [fold_left undisturbed_step] in UN.
      destruct (ctl_cut _ _ _ CP) as (a & b & E & A & B). subst p.
      destruct (IH a (b ++ tail)) as (I1 & I2 & I3); [rewrite EL, app_assoc; reflexivity|exact A|exact UN|].
      rewrite session_app. cbn [fold_left session_step].
      split; [|split; [exact I2|destruct (session_of (g_trace c)) as [[]|]; [discriminate|exact I3]]].
      apply settled_more; [exact I1|exists tail; exact EL| |].
      * rewrite ctl_app, A, B, session_app. destruct (session_of (g_trace c)) as [[]|]; reflexivity.
      * rewrite ctl_app, A, B, connected_app. apply Nat.add_0_r.
  - destruct (request_trace _ _ _ _ _ E) as (es & c1 & c2 & P & -> & -> & T2 & F & T').
    rewrite T' in *. rewrite undisturbed_app in UN. cbn [fold_left undisturbed_step] in UN.
    rewrite fold_left_app, (inner_calm es F) in UN. cbn [fold_left undisturbed_step] in UN.
    assert (UN1 : undisturbed (g_trace c) = true) by (destruct r'; try exact UN; apply andb_true_iff in UN; apply UN).
    assert (FI : firm r' \/ exchanges q = false).
    { destruct r'; try (left; split; discriminate); apply andb_true_iff in UN; destruct UN as [_ UN];
        apply negb_true_iff in UN; right; exact UN. }
    destruct (ctl_cut _ _ _ CP) as (a & b & EP & A & B). subst p.
    destruct (next_ctl b _ _ B) as (w & b1 & -> & B1). destruct (ctl_cut _ _ _ B1) as (m & b2 & -> & M & B2).
    destruct (next_ctl b2 _ _ B2) as (w' & b3 & -> & B3).
    destruct (IH a ((map AC w ++ AG (GBegin q) :: m ++ map AC w' ++ AG (GEnd q r') :: b3) ++ tail)) as (I1 & I2 & I3);
      [rewrite EL, <- !app_assoc; reflexivity|exact A|exact UN1|].
    set (p1 := a ++ map AC w ++ [AG (GBegin q)]).
    assert (C1 : ctl_of p1 = g_trace c ++ [GBegin q]) by (unfold p1; rewrite !ctl_app, ctl_ac, A; reflexivity).
    assert (S1 : session_of (g_trace c ++ [GBegin q]) = session_of (g_trace c)).
    { rewrite session_app. destruct (session_of (g_trace c)) as [[]|]; reflexivity. }
    assert (SP1 : settled p1).
    { apply settled_more; [exact I1| | |].
      - exists ((m ++ map AC w' ++ AG (GEnd q r') :: b3) ++ tail). rewrite EL. rewrite <- !app_assoc. cbn [app]. rewrite <- !app_assoc. reflexivity.
      - change (a ++ map AC w ++ [AG (GBegin q)]) with p1. rewrite C1, A. exact S1.
      - change (a ++ map AC w ++ [AG (GBegin q)]) with p1. rewrite C1, A, connected_app. apply Nat.add_0_r. }
    destruct (perform_done p1 m ((map AC w' ++ AG (GEnd q r') :: b3) ++ tail) q r (k_emit (GBegin q) c) r' c2)
      as (D1 & D2 & D3 & _); auto.
    { unfold p1. rewrite EL. rewrite <- !app_assoc. cbn [app]. rewrite <- !app_assoc. reflexivity. }
    { rewrite C1, S1. exact I3. }
    { rewrite T2, M. reflexivity. }
    assert (SX : forall x : session, fold_left session_step [GEnd q r'] x = x) by (intros [[]|]; reflexivity).
    assert (EQ : a ++ map AC w ++ AG (GBegin q) :: m ++ map AC w' ++ AG (GEnd q r') :: b3 = (p1 ++ m) ++ map AC w' ++ AG (GEnd q r') :: b3).
    { unfold p1. rewrite <- !app_assoc. cbn [app]. reflexivity. }
    assert (CE : ctl_of (map AC w' ++ AG (GEnd q r') :: b3) = [GEnd q r']).
    { rewrite ctl_app, ctl_ac. cbn [ctl_of flat_map app]. f_equal. exact B3. }
    split; [|split; [exact D2|]].
    + rewrite EQ. apply settled_more; [exact D1| | |].
      * exists tail. rewrite EL, EQ. reflexivity.
      * rewrite ctl_app, CE, session_app. apply SX.
      * rewrite ctl_app, CE, connected_app. apply Nat.add_0_r.
    + rewrite ctl_app, C1, M in D3. rewrite <- app_assoc in D3.
      replace (g_trace c ++ GBegin q :: es ++ [GEnd q r']) with ((g_trace c ++ [GBegin q] ++ es) ++ [GEnd q r'])
        by (rewrite <- !app_assoc; reflexivity).
      rewrite session_app, SX. exact D3.
Qed.

Definition no_begin (h : list geffect) : Prop := forall q, ~ In (GBegin q) h.
(** Where an element of [b] cannot be, [a] must end first. *)
Lemma split_before {A} (P : A -> Prop) (a b x : list A) (e : A) (y : list A) :
  a ++ b = x ++ e :: y -> Forall P b -> ~ P e -> exists z, a = x ++ e :: z /\ y = z ++ b.
Proof.
  revert x. induction a as [|u a IH]; intros x H F N.
  - exfalso. cbn [app] in H. rewrite H in F. apply Forall_app in F. destruct F as [_ F]. inversion F. contradiction.
  - destruct x as [|v x]; cbn [app] in H; injection H as -> H.
    + exists a. split; [reflexivity|]. auto.
    + destruct (IH x H F N) as (z & -> & E). exists z. auto.
Qed.

Lemma history_split r c : history r c -> forall g q h x z,
  g_trace c = g ++ GBegin q :: h ++ GEnd q x :: z -> no_begin h ->
  exists r0 c0 c1, history r0 c0 /\ g_trace c0 = g /\ make_request sends incoming absolute q r0 c0 = (x, c1) /\
    g_trace c1 = g ++ GBegin q :: h ++ [GEnd q x].
Proof.
  induction 1 as [c E|r c ok c' H IH E|r c q' r' c' H IH E]; intros g q h x z T NB.
  - exfalso. unfold ctl_connect in E. injection E as _ <-. cbn in T. destruct g as [|e [|e' g]]; cbn in T; discriminate T.
  - unfold ctl_connect in E. injection E as _ <-. cbn [k_emit g_trace] in T.
    destruct (split_before (fun e => match e with GEnd _ _ => False | _ => True end) (g_trace c) [GConnect (connects (g_connects c))]
                (g ++ GBegin q :: h) (GEnd q x) z) as (z' & Q & _).
    { rewrite <- app_assoc. exact T. } { repeat constructor. } { exact (fun f => f). }
    eapply IH; [|exact NB]. rewrite Q, <- app_assoc. reflexivity.
  - destruct (request_trace _ _ _ _ _ E) as (es & c1 & c2 & P & E1 & E2 & T2 & F & T'). rewrite T' in T.
    assert (ZZ : z = [] \/ exists z0 e0, z = z0 ++ [e0]).
    { destruct z as [|e1 z1]; [left; reflexivity|right]. destruct (exists_last (l := e1 :: z1)) as (z0 & e0 & Q); [discriminate|]. eauto. }
    destruct ZZ as [->|(z0 & e0 & ->)].
    + (* the last operation *)
      assert (T0 : (g_trace c ++ GBegin q' :: es) ++ [GEnd q' r'] = (g ++ GBegin q :: h) ++ [GEnd q x]).
      { rewrite <- !app_assoc. exact T. }
      apply app_inj_tail in T0. destruct T0 as [T0 T1]. injection T1 as -> ->.
      assert (G : g_trace c = g /\ es = h).
      { assert (NE : no_begin es).
        { intros q0 I0. rewrite Forall_forall in F. destruct (F _ I0). }
        clear - T0 NB NE. revert g T0. induction (g_trace c) as [|u t IH]; intros g T0.
        - destruct g as [|v g]; cbn [app] in T0; [injection T0 as E2; auto|injection T0 as E1 E2].
          exfalso. apply (NE q). rewrite E2. apply in_or_app. right. left. reflexivity.
        - destruct g as [|v g]; cbn [app] in T0; injection T0 as E1 E2.
          + exfalso. apply (NB q). rewrite <- E2. apply in_or_app. right. left. reflexivity.
          + subst v. destruct (IH g E2) as [-> ->]. auto. }
      destruct G as [G ->]. exists r, c, c'. rewrite T', G. auto.
    + (* an earlier one *)
      assert (T0 : (g_trace c ++ GBegin q' :: es) ++ [GEnd q' r'] = (g ++ GBegin q :: h ++ GEnd q x :: z0) ++ [e0]).
      { rewrite <- !app_assoc. cbn [app]. rewrite <- !app_assoc. exact T. }
      apply app_inj_tail in T0. destruct T0 as [T0 _].
      assert (T3 : (g_trace c ++ [GBegin q']) ++ es = (g ++ GBegin q :: h) ++ GEnd q x :: z0).
      { rewrite <- !app_assoc. exact T0. }
      destruct (split_before inner _ _ _ _ _ T3 F) as (z1 & Q & _); [exact (fun f => f)|].
      destruct (split_before (fun e => match e with GEnd _ _ => False | _ => True end) (g_trace c) [GBegin q'] _ _ _ Q) as (z2 & Q2 & _);
        [repeat constructor|exact (fun f => f)|].
      eapply IH; [|exact NB]. rewrite Q2, <- app_assoc. reflexivity.
Qed.

(** An operation which ended with a result was answered. *)
Lemma operation_done r0 c0 p q m r tail : history r0 c0 ->
  L = p ++ AG (GBegin q) :: m ++ AG (GEnd q r) :: tail -> prefix (ctl_of L) (g_trace c0) -> no_begin (ctl_of m) ->
  undisturbed (ctl_of p) = true -> firm r \/ exchanges q = false -> done p m q r.
Proof.
  intros H EL [rest PR] NB UN FI.
  rewrite EL, ctl_app in PR. cbn [ctl_of flat_map app] in PR.
  change (flat_map _ (m ++ AG (GEnd q r) :: tail)) with (ctl_of (m ++ AG (GEnd q r) :: tail)) in PR.
  rewrite ctl_app in PR. change (ctl_of (AG (GEnd q r) :: tail)) with (GEnd q r :: ctl_of tail) in PR.
  change (flat_map _ p) with (ctl_of p) in PR.
  rewrite <- !app_assoc in PR. cbn [app] in PR. rewrite <- !app_assoc in PR. cbn [app] in PR.
  destruct (history_split _ _ H (ctl_of p) q (ctl_of m) r (ctl_of tail ++ rest) PR NB) as (r1 & c1 & c2 & H1 & T1 & M & T2).
  destruct (history_settled r1 c1 H1 p (AG (GBegin q) :: m ++ AG (GEnd q r) :: tail) EL (eq_sym T1)) as (S1 & S2 & S3).
  { rewrite T1. exact UN. }
  destruct (request_trace _ _ _ _ _ M) as (es & d1 & d2 & P & -> & -> & T3 & F & T').
  set (p1 := p ++ [AG (GBegin q)]).
  assert (C1 : ctl_of p1 = g_trace c1 ++ [GBegin q]) by (unfold p1; rewrite ctl_app, T1; reflexivity).
  assert (SS : session_of (g_trace c1 ++ [GBegin q]) = session_of (g_trace c1)).
  { rewrite session_app. destruct (session_of (g_trace c1)) as [[]|]; reflexivity. }
  assert (SP1 : settled p1).
  { apply settled_more; [exact S1| | |].
    - exists (m ++ AG (GEnd q r) :: tail). rewrite EL, <- app_assoc. reflexivity.
    - change (p ++ [AG (GBegin q)]) with p1. rewrite C1, <- T1. exact SS.
    - change (p ++ [AG (GBegin q)]) with p1. rewrite C1, <- T1, connected_app. apply Nat.add_0_r. }
  assert (EM : es = ctl_of m).
  { rewrite T' in T2. rewrite <- T1 in T2. apply app_inv_head in T2. injection T2 as T2. apply app_inv_tail in T2. exact T2. }
  destruct (perform_done p1 m (AG (GEnd q r) :: tail) q r1 (k_emit (GBegin q) c1) r d2) as (_ & _ & _ & D); auto.
  { unfold p1. rewrite EL, <- app_assoc. reflexivity. }
  { rewrite C1, SS. exact S3. }
  { rewrite T3, EM. reflexivity. }
  (* what the client did before is the same *)
  assert (CL : client_of p1 = client_of p) by (unfold p1; rewrite client_app; cbn; apply app_nil_r).
  assert (ONE : forall mm c a, one p1 mm c a -> one p mm c a).
  { intros mm c a (s & v1 & v2 & v3 & A). exists s, v1, v2, v3. unfold answered in *. rewrite CL in A. exact A. }
  assert (ONE' : forall m1 mm c a, one (p1 ++ m1) mm c a -> one (p ++ m1) mm c a).
  { intros m1 mm c a (s & v1 & v2 & v3 & A). exists s, v1, v2, v3. unfold answered in *. rewrite client_app, CL, <- client_app in A. exact A. }
  unfold done in *. destruct (rq_type q); try exact D;
    try (destruct D as (c & mm & m' & k & st & Q1 & Q2 & Q3 & Q4); exists c, mm, m', k, st; eauto; fail);
    try (destruct D as (m1 & m' & k & st & Q1 & Q2 & Q3); exists m1, m', k, st; (split; [exact Q1|]); (split; [apply ONE; exact Q2|]);
         destruct Q3 as [Q3|(Q3 & m2 & m3 & k' & st' & Q4 & Q5)]; [left; exact Q3|right; split; [exact Q3|exists m2, m3, k', st'; auto]]).
  - destruct D as [D|(c & mm & m' & k & st & Q1 & Q2 & Q3 & Q4)]; [left; exact D|right; exists c, mm, m', k, st; eauto].
  - destruct D as (x & mm & m' & Q1 & Q2 & Q3). exists x, mm, m'. auto.
Qed.
End Logs.
