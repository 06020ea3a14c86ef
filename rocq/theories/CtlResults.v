(** From the exchanges to the results of the operations. *)
From Coq Require Import String Ascii List Arith NArith ZArith Bool Lia.
From Verif Require Import Base Key Text KeyNames Match ParseSeq Stage Config MultiStage Replay StageProperties
  Serial SerialSpec Client ClientSpec ClientProofs ClientContexts ClientControl ClientProperties
  Ctl CtlSpec CtlLink CtlSystem CtlExchange.
Import ListNotations.
Local Open Scope N_scope.

(** ** From the link to names and states *)

Lemma names_link s t : lk_names (link_of s t) = names_of t.
Proof.
  unfold names_of. induction t as [|e t IH] using rev_ind; [reflexivity|].
  rewrite link_snoc. unfold held. rewrite fold_left_app. cbn [fold_left]. fold (held t).
  destruct e as [| | |[]|s'|s' m|[]|s' m| | |s'|]; cbn [link_step held_step fst];
    repeat match goal with |- context [if ?b then _ else _] => destruct b end; cbn [lk_names]; first [exact IH|reflexivity].
Qed.

Section Both.
Variables (search : text -> text -> bool) (typer : text -> list stroke) (key_name : key -> option text) (system : text)
  (sent : nat -> bool) (focus : nat -> option window) (disk : nat -> files) (name : text) (steps : list cstep).
Variables (connects sends : nat -> bool) (incoming : nat -> option bytes) (absolute : text -> option text)
  (atoi : text -> Z) (fuel : nat) (args : list text).
Variables (at_client : nat -> N * nat) (L : log).
Let client := cl_trace (client_main search typer key_name system sent focus disk name steps).
Let ctl := g_trace (snd (ctl_main connects sends incoming absolute atoi fuel args)).
Hypothesis B : both client ctl at_client L.
Hypothesis SI : short_infos (client_of L).

Lemma L_ok s : lk_ok (link_of s (client_of L)) = true.
Proof.
  destruct B as ([x E] & _). apply (ok_mono s (client_of L) x). rewrite <- E.
  destruct (main_link search typer key_name system sent focus disk name steps s) as (A & _). exact A.
Qed.
Lemma L_right : answers_right (client_of L).
Proof.
  destruct B as ([x E] & _). intros p s k st q Q V N.
  destruct (main_inv search typer key_name system sent focus disk name steps) as [[_ _ AN _] _].
  apply (AN p s k st (q ++ x)); [|exact V|exact N]. fold client. rewrite E, Q, <- app_assoc. reflexivity.
Qed.

Lemma op_done p q m r : operation L p q m r -> undisturbed (ctl_of p) = true -> r <> RFailed -> r <> RTimeout ->
  done absolute p m q r.
Proof.
  intros (tail & E & NB) U N1 N2. destruct B as (_ & PR & DEL).
  destruct (main_history connects sends incoming absolute atoi fuel args _ eq_refl) as [[r0 H]|H].
  - apply (operation_done at_client L DEL L_ok SI connects sends incoming absolute r0 _ p q m r tail H E PR NB U).
    left. split; assumption.
  - exfalso. apply (H q). destruct PR as [x PR]. unfold ctl in PR. rewrite PR. apply in_or_app. left.
    rewrite E, ctl_app. apply in_or_app. right. left. reflexivity.
Qed.

(** What an answered request for a key means. *)
Lemma one_get p mm n m' tail k st : L = p ++ mm ++ m' ++ tail ->
  one p mm (QGet n) (AVirtual k st) ->
  exists s v1 v2 v3, client_of mm = v1 ++ FAsked s (QGet n) :: v2 ++ FAnswer s (AVirtual k st) :: v3 /\
    k = named (names_of (client_of p ++ v1)) n /\ (k = 0 -> st = Not) /\
    (k <> 0 -> k <> last_virtual -> st = if reported k (client_of p ++ v1 ++ FAsked s (QGet n) :: v2) then Down else Up).
Proof.
  intros E (s & v1 & v2 & v3 & C & ID & QU & o & OW & PAY). exists s, v1, v2, v3. split; [exact C|].
  rewrite app_assoc in OW. apply (owed_for s _ _ _ _ ID QU) in OW. cbn [asks_for] in OW. rewrite names_link in OW. subst o.
  cbn [pays] in PAY. apply andb_true_iff in PAY. destruct PAY as [PK PS]. apply N.eqb_eq in PK.
  split; [exact PK|]. rewrite <- PK in PS.
  assert (V : k = 0 \/ is_virtual_key k = true) by (rewrite PK; apply named_virtual).
  split.
  - intros ->. destruct st; try discriminate PS; reflexivity.
  - intros NZ NL. destruct V as [V|V]; [contradiction|].
    eapply (L_right _ s k st (v3 ++ client_of m' ++ client_of tail)); [|exact V|exact NL].
    rewrite E, !client_app, C. rewrite <- !app_assoc. cbn [app]. rewrite <- ?app_assoc. reflexivity.
Qed.
Lemma one_set p mm n x m' tail k st : L = p ++ mm ++ m' ++ tail ->
  one p mm (QSet n x) (AVirtual k st) ->
  exists s v1 v2 v3, client_of mm = v1 ++ FAsked s (QSet n x) :: v2 ++ FAnswer s (AVirtual k st) :: v3 /\
    k = named (names_of (client_of p ++ v1)) n /\ (k = 0 -> st = Not) /\ (k <> 0 -> st = Up \/ st = Down).
Proof.
  intros E (s & v1 & v2 & v3 & C & ID & QU & o & OW & PAY). exists s, v1, v2, v3. split; [exact C|].
  rewrite app_assoc in OW. apply (owed_for s _ _ _ _ ID QU) in OW. cbn [asks_for] in OW. rewrite names_link in OW. subst o.
  cbn [pays] in PAY. apply andb_true_iff in PAY. destruct PAY as [PK PS]. apply N.eqb_eq in PK.
  split; [exact PK|]. rewrite <- PK in PS.
  assert (V : k = 0 \/ is_virtual_key k = true) by (rewrite PK; apply named_virtual).
  split.
  - intros ->. destruct st; try discriminate PS; reflexivity.
  - intros NZ. destruct V as [V|V]; [contradiction|]. rewrite V in PS. destruct st; try discriminate PS; auto.
Qed.
Lemma one_notify p mm n k st : one p mm (QNotify n) (AVirtual k st) ->
  exists v1 v2, client_of mm = v1 ++ v2 /\ (k = named (names_of (client_of p ++ v1)) n) /\
    (k <> 0 -> exists w1 x w2, v2 = w1 ++ FGot (DVirtual k x) :: w2).
Proof.
  intros (s & v1 & v2 & v3 & C & ID & QU & o & OW & PAY). exists v1. eexists. split; [exact C|].
  rewrite app_assoc in OW. apply (owed_for s _ _ _ _ ID QU) in OW. cbn [asks_for] in OW. rewrite names_link in OW.
  set (k0 := named (names_of (client_of p ++ v1)) n) in *.
  destruct (N.eqb_spec k0 0) as [Z|Z].
  - subst o. cbn [pays] in PAY. apply andb_true_iff in PAY. destruct PAY as [PK _]. apply N.eqb_eq in PK.
    split; [congruence|]. intro Q. contradiction.
  - destruct OW as (-> & w1 & x & w2 & EW). cbn [pays] in PAY. apply andb_true_iff in PAY. destruct PAY as [PK _]. apply N.eqb_eq in PK.
    split; [exact PK|]. intros _. exists (FAsked s (QNotify n) :: w1), x, (w2 ++ FAnswer s (AVirtual k st) :: v3).
    rewrite EW, PK. cbn [app]. rewrite <- app_assoc. reflexivity.
Qed.

Lemma changes_moment k b t z1 x z2 rest : only_changes k (t ++ z1 ++ FGot (DVirtual k x) :: z2 ++ rest) ->
  reported k t = negb b -> sometime (fun u => reported k u = b) t (z1 ++ FGot (DVirtual k x) :: z2).
Proof.
  intros OC R. destruct (Bool.bool_dec (reported k (t ++ z1)) b) as [E|E].
  - exists z1, (FGot (DVirtual k x) :: z2). auto.
  - exists (z1 ++ [FGot (DVirtual k x)]), z2. split; [rewrite <- app_assoc; reflexivity|].
    rewrite app_assoc, reported_snoc. cbn [reported_step]. rewrite N.eqb_refl.
    rewrite (OC (t ++ z1) x (z2 ++ rest)) by (rewrite <- app_assoc; reflexivity).
    destruct (reported k (t ++ z1)), b; try reflexivity; destruct (E eq_refl).
Qed.
Lemma sometime_in P t v w1 w2 : v = w1 ++ w2 -> sometime P (t ++ w1) w2 -> sometime P t v.
Proof. intros -> (a & b & -> & H). exists (w1 ++ a), b. rewrite <- app_assoc in H. split; [rewrite <- app_assoc; reflexivity|exact H]. Qed.

(** Waiting for a state: it was there at some moment, or there is no such key. *)
Lemma wait_state p q m r k (b : bool) :
  operation L p q m r -> undisturbed (ctl_of p) = true -> r <> RFailed -> r <> RTimeout ->
  rq_type q = (if b then QtWaitPressed else QtWaitReleased) ->
  throughout (fun t => named (names_of t) (rq_string q) = k) (client_of p) (client_of m) ->
  k <> 0 -> k <> last_virtual -> only_changes k (client_of (p ++ m)) ->
  sometime (fun t => reported k t = b) (client_of p) (client_of m).
Proof.
  intros OP UN N1 N2 TY NM NZ NL OC. pose proof (op_done p q m r OP UN N1 N2) as D.
  destruct OP as (tail & EL & _).
  assert (DD : exists m1 m' k0 st, m = m1 ++ m' /\ one p m1 (QGet (rq_string q)) (AVirtual k0 st) /\
      (st = (if b then Down else Up) \/ st <> (if b then Down else Up) /\
       exists m2 m3 k' st', m' = m2 ++ m3 /\ one (p ++ m1) m2 (QNotify (rq_string q)) (AVirtual k' st'))).
  { unfold done in D. rewrite TY in D. destruct b; exact D. }
  clear D. destruct DD as (m1 & m' & k0 & st & EM & O1 & D).
  assert (EL' : L = (p ++ [AG (GBegin q)]) ++ m1 ++ m' ++ AG (GEnd q r) :: tail).
  { rewrite EL, EM, <- !app_assoc. reflexivity. }
  assert (CP : client_of (p ++ [AG (GBegin q)]) = client_of p) by (rewrite client_app; apply app_nil_r).
  assert (O1' : one (p ++ [AG (GBegin q)]) m1 (QGet (rq_string q)) (AVirtual k0 st)).
  { destruct O1 as (s & v1 & v2 & v3 & A). exists s, v1, v2, v3. unfold answered in *. rewrite CP. exact A. }
  destruct (one_get _ _ _ _ _ _ _ EL' O1') as (s & v1 & v2 & v3 & C1 & K0 & _ & ST). rewrite CP in *.
  assert (KK : k0 = k).
  { rewrite K0. apply (NM v1 (FAsked s (QGet (rq_string q)) :: v2 ++ FAnswer s (AVirtual k0 st) :: v3 ++ client_of m')).
    rewrite EM, client_app, C1, <- app_assoc. cbn [app]. rewrite <- app_assoc. reflexivity. }
  clear K0. subst k0. specialize (ST NZ NL).
  set (u := v1 ++ FAsked s (QGet (rq_string q)) :: v2) in *.
  assert (CM : client_of m = u ++ (FAnswer s (AVirtual k st) :: v3) ++ client_of m').
  { rewrite EM, client_app, C1. unfold u. rewrite <- !app_assoc. cbn [app]. rewrite <- ?app_assoc. reflexivity. }
  destruct D as [D|(D & m2 & m3 & k' & st' & EM' & O2)].
  - exists u, ((FAnswer s (AVirtual k st) :: v3) ++ client_of m'). split; [exact CM|].
    rewrite D in ST. destruct b, (reported k (client_of p ++ u)); try reflexivity; discriminate ST.
  - destruct (one_notify _ _ _ _ _ O2) as (y1 & y2 & C2 & K2 & RP).
    assert (KK2 : k' = k).
    { rewrite K2. rewrite client_app, <- app_assoc. apply (NM (client_of m1 ++ y1) (y2 ++ client_of m3)).
      rewrite EM, client_app, EM', client_app, C2, <- !app_assoc. reflexivity. }
    clear K2. subst k'. destruct (RP NZ) as (w1 & x & w2 & EW).
    assert (CM2 : client_of m = u ++ ((FAnswer s (AVirtual k st) :: v3) ++ y1 ++ w1) ++ FGot (DVirtual k x) :: w2 ++ client_of m3).
    { rewrite CM, EM', client_app, C2, EW. rewrite <- !app_assoc. cbn [app]. rewrite <- ?app_assoc. reflexivity. }
    apply (sometime_in _ _ _ u _ CM2).
    apply (changes_moment k b (client_of p ++ u) _ x (w2 ++ client_of m3) []).
    + rewrite app_nil_r. rewrite client_app, CM2, app_assoc in OC. exact OC.
    + destruct b, (reported k (client_of p ++ u)); try reflexivity; destruct (D ST).
Qed.
Lemma wait_toggled p q m r k :
  operation L p q m r -> undisturbed (ctl_of p) = true -> r <> RFailed -> r <> RTimeout ->
  rq_type q = QtWaitToggled ->
  throughout (fun t => named (names_of t) (rq_string q) = k) (client_of p) (client_of m) -> k <> 0 ->
  exists x, In (FGot (DVirtual k x)) (client_of m).
Proof.
  intros OP UN N1 N2 TY NM NZ. pose proof (op_done p q m r OP UN N1 N2) as D. unfold done in D. rewrite TY in D.
  destruct D as (m1 & m' & k0 & st & EM & _ & [[]|(_ & m2 & m3 & k' & st' & EM' & O2)]).
  destruct (one_notify _ _ _ _ _ O2) as (y1 & y2 & C2 & K2 & RP).
  assert (KK2 : k' = k).
  { rewrite K2. rewrite client_app, <- app_assoc. apply (NM (client_of m1 ++ y1) (y2 ++ client_of m3)).
    rewrite EM, client_app, EM', client_app, C2, <- !app_assoc. reflexivity. }
  clear K2. subst k'. destruct (RP NZ) as (w1 & x & w2 & EW). exists x.
  rewrite EM, client_app, EM', client_app, C2, EW. rewrite !in_app_iff. cbn [In]. auto 8.
Qed.

Lemma results_own p q m r call :
  operation L p q m r -> undisturbed (ctl_of p) = true -> r <> RFailed -> r <> RTimeout ->
  call_of absolute q = Some call ->
  exists s v1 v2 k st v3, client_of m = v1 ++ FAsked s call :: v2 ++ FAnswer s (AVirtual k st) :: v3 /\
    r = verdict (rq_type q) st /\
    (forall n, call = QGet n -> k = named (names_of (client_of p ++ v1)) n /\ (k = 0 -> st = Not) /\
       (k <> 0 -> k <> last_virtual ->
        st = if reported k (client_of p ++ v1 ++ FAsked s call :: v2) then Down else Up)) /\
    (forall n x, call = QSet n x -> k = named (names_of (client_of p ++ v1)) n /\ (k = 0 -> st = Not) /\
       (k <> 0 -> st = Up \/ st = Down)).
Proof.
  intros OP UN N1 N2 CA. pose proof (op_done p q m r OP UN N1 N2) as D. destruct OP as (tail & EL & _).
  assert (DD : exists mm m' k st, m = mm ++ m' /\ one p mm call (AVirtual k st) /\ r = verdict (rq_type q) st).
  { unfold done in D. unfold call_of in CA. destruct (rq_type q) eqn:TY; try discriminate CA.
    all: try (destruct D as (c & mm & m' & k & st & Q1 & Q2 & Q3 & Q4); unfold call_of in Q1; rewrite TY in Q1;
              rewrite CA in Q1; injection Q1 as <-; exists mm, m', k, st; auto).
    destruct D as [[D _]|(c & mm & m' & k & st & Q1 & Q2 & Q3 & Q4)]; [rewrite D in CA; discriminate CA|].
    unfold call_of in Q1. rewrite TY, CA in Q1. injection Q1 as <-. exists mm, m', k, st. auto. }
  destruct DD as (mm & m' & k & st & EM & O1 & RV).
  assert (EL' : L = (p ++ [AG (GBegin q)]) ++ mm ++ m' ++ AG (GEnd q r) :: tail).
  { rewrite EL, EM, <- !app_assoc. reflexivity. }
  assert (CP : client_of (p ++ [AG (GBegin q)]) = client_of p) by (rewrite client_app; apply app_nil_r).
  assert (O1' : one (p ++ [AG (GBegin q)]) mm call (AVirtual k st)).
  { destruct O1 as (s & v1 & v2 & v3 & A). exists s, v1, v2, v3. unfold answered in *. rewrite CP. exact A. }
  assert (CM : forall v1 s v2 v3, client_of mm = v1 ++ FAsked s call :: v2 ++ FAnswer s (AVirtual k st) :: v3 ->
            client_of m = v1 ++ FAsked s call :: v2 ++ FAnswer s (AVirtual k st) :: v3 ++ client_of m').
  { intros v1 s v2 v3 C. rewrite EM, client_app, C. rewrite <- !app_assoc. cbn [app]. rewrite <- ?app_assoc. reflexivity. }
  destruct call as [n|n x|n|i|f| |t|t].
  - destruct (one_get _ _ _ _ _ _ _ EL' O1') as (s & v1 & v2 & v3 & C & K). rewrite CP in K.
    exists s, v1, v2, k, st, (v3 ++ client_of m'). split; [apply CM; exact C|]. split; [exact RV|].
    split; [intros n' Q; injection Q as <-; exact K|intros n' x' Q; discriminate Q].
  - destruct (one_set _ _ _ _ _ _ _ _ EL' O1') as (s & v1 & v2 & v3 & C & K). rewrite CP in K.
    exists s, v1, v2, k, st, (v3 ++ client_of m'). split; [apply CM; exact C|]. split; [exact RV|].
    split; [intros n' Q; discriminate Q|intros n' x' Q; injection Q as <- <-; exact K].
  - destruct O1 as (s & v1 & v2 & v3 & C & _). exists s, v1, v2, k, st, (v3 ++ client_of m').
    split; [apply CM; exact C|]. split; [exact RV|]. split; intros; discriminate.
  - destruct O1 as (s & v1 & v2 & v3 & C & _). exists s, v1, v2, k, st, (v3 ++ client_of m').
    split; [apply CM; exact C|]. split; [exact RV|]. split; intros; discriminate.
  - destruct O1 as (s & v1 & v2 & v3 & C & _). exists s, v1, v2, k, st, (v3 ++ client_of m').
    split; [apply CM; exact C|]. split; [exact RV|]. split; intros; discriminate.
  - destruct O1 as (s & v1 & v2 & v3 & C & _). exists s, v1, v2, k, st, (v3 ++ client_of m').
    split; [apply CM; exact C|]. split; [exact RV|]. split; intros; discriminate.
  - destruct O1 as (s & v1 & v2 & v3 & C & _). exists s, v1, v2, k, st, (v3 ++ client_of m').
    split; [apply CM; exact C|]. split; [exact RV|]. split; intros; discriminate.
  - destruct O1 as (s & v1 & v2 & v3 & C & _). exists s, v1, v2, k, st, (v3 ++ client_of m').
    split; [apply CM; exact C|]. split; [exact RV|]. split; intros; discriminate.
Qed.
Lemma next_own p q m r :
  operation L p q m r -> undisturbed (ctl_of p) = true -> r <> RFailed -> r <> RTimeout ->
  rq_type q = QtNextKey ->
  exists s v1 v2 v3 v4 k n i x, client_of m = v1 ++ FAsked s QNextKey :: v2 ++ FGot (DNextKeyInfo k n i) :: v3 ++
      FAnswer s (ANextKeyInfo x) :: v4 /\
    In (GPrint x) (ctl_of m).
Proof.
  intros OP UN N1 N2 TY. pose proof (op_done p q m r OP UN N1 N2) as D. unfold done in D. rewrite TY in D.
  destruct D as (x & mm & m' & EM & IN & s & v1 & v2 & v3 & C & ID & QU & o & OW & PAY).
  rewrite app_assoc in OW. apply (owed_for s _ _ _ _ ID QU) in OW. cbn [asks_for] in OW.
  destruct OW as (_ & w1 & k & n & i & w2 & EW).
  exists s, v1, w1, w2, (v3 ++ client_of m'), k, n, i, x. split; [|exact IN].
  rewrite EM, client_app, C, EW. rewrite <- !app_assoc. cbn [app]. rewrite <- !app_assoc. cbn [app]. rewrite <- ?app_assoc. reflexivity.
Qed.
End Both.
