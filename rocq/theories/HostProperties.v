(** Property C110: how two processes get connected. *)
From Coq Require Import String.
From Coq Require Import List Arith NArith Bool Lia Ascii.
From Verif Require Import Base Text Serial Host HostSpec ClientControl.
Import ListNotations.

(** ** The state of a connection *)

Section Invariant.
Variables (own : bytes) (inherits : bool).
(** Nobody gives up or ends, and accepted sockets are blocking. *)
Variable calm : bool.

Definition peer_ok (s : bytes) (p : peer) : Prop :=
  s = pe_got p ++ pe_up p ++ pe_left p /\
  (calm = true -> pe_closed p = false) /\
  match pe_phase p with
  | Away => pe_got p = [] /\ pe_up p = [] /\ pe_down p = [] /\ pe_result p = None /\ pe_closed p = false
  | Queued => pe_got p = [] /\ pe_down p = [] /\ pe_result p = None
  | Reading => length (pe_got p) < hash_size /\ pe_down p = [] /\ pe_result p = None
  | Accepted => pe_got p = own /\ (pe_down p = write_bool true /\ pe_result p = None \/ pe_down p = [] /\ pe_result p = Some true)
  | Refused => pe_down p = [] /\ (pe_result p = None \/ pe_result p = Some false) /\
               (calm = true -> pe_got p <> own /\ length (pe_got p) = hash_size)
  | GaveUp => calm = false /\ pe_result p = Some false /\ pe_got p = [] /\ pe_down p = []
  end.
Definition phase_at (h : host) (i : nat) (ph : phase) : Prop := exists p, nth_error (h_peers h) i = Some p /\ pe_phase p = ph.
Record host_ok (scripts : list bytes) (h : host) : Prop := {
  ok_length : length (h_peers h) = length scripts;
  ok_peers : forall i s p, nth_error scripts i = Some s -> nth_error (h_peers h) i = Some p -> peer_ok s p;
  ok_queue : forall i, In i (h_queue h) <-> phase_at h i Queued;
  ok_nodup : NoDup (h_queue h);
  ok_current : forall i, h_current h = Some i <-> phase_at h i Reading;
  ok_mismatch : h_mismatch h = true -> exists s, In s scripts /\ hash_size <= length s /\ firstn hash_size s <> own;
  ok_other : h_mismatch h = false -> forall i p, nth_error (h_peers h) i = Some p -> length (pe_got p) = hash_size -> pe_got p = own
}.

Lemma start_ok scripts : host_ok scripts (start scripts).
Proof.
  assert (N : forall i p, nth_error (h_peers (start scripts)) i = Some p -> exists s, nth_error scripts i = Some s /\ p = new_peer s).
  { intros i p H. cbn [start h_peers] in H. rewrite nth_error_map in H. destruct (nth_error scripts i) as [s|]; [|discriminate H]. injection H as <-. eauto. }
  constructor.
  - apply map_length.
  - intros i s p Hs Hp. destruct (N i p Hp) as (s' & Hs' & ->). rewrite Hs in Hs'. injection Hs' as <-. now repeat split.
  - intros i. split; [intros []|]. intros (p & Hp & Q). destruct (N i p Hp) as (s & _ & ->). discriminate Q.
  - constructor.
  - intros i. split; [intros [=]|]. intros (p & Hp & Q). destruct (N i p Hp) as (s & _ & ->). discriminate Q.
  - intros [=].
  - intros _ i p Hp Q. destruct (N i p Hp) as (s & _ & ->). discriminate Q.
Qed.

(** A peer is replaced by one which went on. *)
Lemma nth_set i q h j : nth_error (h_peers (set_peer i q h)) j =
  if Nat.eqb i j then match nth_error (h_peers h) j with Some _ => Some q | None => None end else nth_error (h_peers h) j.
Proof.
  cbn [set_peer h_peers]. rewrite nth_update_at. destruct (Nat.eqb_spec i j); destruct (nth_error (h_peers h) j); reflexivity.
Qed.

Lemma replace_ok scripts h i p q Q c m : host_ok scripts h -> nth_error (h_peers h) i = Some p ->
  (forall s, nth_error scripts i = Some s -> peer_ok s p -> peer_ok s q) ->
  (forall j, j <> i -> (In j Q <-> In j (h_queue h))) -> (In i Q <-> pe_phase q = Queued) -> NoDup Q ->
  (forall j, j <> i -> (c = Some j <-> h_current h = Some j)) -> (c = Some i <-> pe_phase q = Reading) ->
  (m = true -> h_mismatch h = true \/ length (pe_got q) = hash_size /\ pe_got q <> own) ->
  (m = false -> h_mismatch h = false /\ (length (pe_got q) = hash_size -> pe_got q = own)) ->
  host_ok scripts (Ho (h_peers (set_peer i q h)) Q c m).
Proof.
  intros K Hp Hq HQ HQi ND Hc Hci Hm Hm'. destruct K as [Kl Kp Kq Kn Kc Km Ko].
  assert (Ni : nth_error (h_peers (set_peer i q h)) i = Some q) by (now rewrite nth_set, Nat.eqb_refl, Hp).
  assert (Nj : forall j, j <> i -> nth_error (h_peers (set_peer i q h)) j = nth_error (h_peers h) j).
  { intros j Hj. rewrite nth_set. destruct (Nat.eqb_spec i j); [congruence|reflexivity]. }
  assert (Hs : exists s, nth_error scripts i = Some s).
  { destruct (nth_error scripts i) as [s|] eqn:Hs; [eauto|]. apply nth_error_None in Hs. rewrite <- Kl in Hs. apply nth_error_None in Hs. congruence. }
  destruct Hs as [s Hs]. pose proof (Hq s Hs (Kp i s p Hs Hp)) as Oq.
  constructor; cbn [h_peers h_queue h_current h_mismatch].
  - cbn [set_peer h_peers]. now rewrite length_update_at.
  - intros j s' p' Hs' Hp'. destruct (Nat.eq_dec j i) as [->|D].
    + rewrite Ni in Hp'. injection Hp' as <-. rewrite Hs in Hs'. injection Hs' as <-. exact Oq.
    + rewrite Nj in Hp' by exact D. exact (Kp j s' p' Hs' Hp').
  - intros j. destruct (Nat.eq_dec j i) as [->|D].
    + rewrite HQi. unfold phase_at. cbn [h_peers]. rewrite Ni. split; [eauto|]. intros (p' & [= <-] & E). exact E.
    + rewrite (HQ j D), Kq. unfold phase_at. cbn [h_peers]. now rewrite Nj.
  - exact ND.
  - intros j. destruct (Nat.eq_dec j i) as [->|D].
    + rewrite Hci. unfold phase_at. cbn [h_peers]. rewrite Ni. split; [eauto|]. intros (p' & [= <-] & E). exact E.
    + rewrite (Hc j D), Kc. unfold phase_at. cbn [h_peers]. now rewrite Nj.
  - intros T. destruct (Hm T) as [M|[L D]]; [exact (Km M)|]. exists s. split; [eapply nth_error_In; exact Hs|].
    destruct Oq as (E & _). rewrite E, app_length. split; [lia|]. rewrite firstn_app, <- L, firstn_all, Nat.sub_diag. cbn. now rewrite app_nil_r.
  - intros T j p' Hp'. destruct (Hm' T) as [M G]. destruct (Nat.eq_dec j i) as [->|D].
    + rewrite Ni in Hp'. now injection Hp' as <-.
    + rewrite Nj in Hp' by exact D. exact (Ko M j p' Hp').
Qed.

Lemma phase_is scripts h i p : host_ok scripts h -> nth_error (h_peers h) i = Some p ->
  (In i (h_queue h) <-> pe_phase p = Queued) /\ (h_current h = Some i <-> pe_phase p = Reading).
Proof.
  intros K Hp. rewrite (ok_queue _ _ K i), (ok_current _ _ K i). unfold phase_at. rewrite Hp.
  split; (split; [intros (p' & [= <-] & E); exact E|eauto]).
Qed.
(** One which stays where it is *)
Lemma same_ok scripts h i p q : host_ok scripts h -> nth_error (h_peers h) i = Some p -> pe_phase q = pe_phase p ->
  pe_got q = pe_got p -> (forall s, nth_error scripts i = Some s -> peer_ok s p -> peer_ok s q) -> host_ok scripts (set_peer i q h).
Proof.
  intros K Hp Ph G Hq. destruct (phase_is _ _ _ _ K Hp) as [P1 P2].
  change (set_peer i q h) with (Ho (h_peers (set_peer i q h)) (h_queue h) (h_current h) (h_mismatch h)).
  eapply replace_ok; eauto; try (intros j _; reflexivity); try (now rewrite Ph); [exact (ok_nodup _ _ K)|].
  intros M. split; [exact M|]. rewrite G. exact (ok_other _ _ K M i p Hp).
Qed.

Lemma move_ok scripts h m h' : host_ok scripts h -> move_run own inherits m h = Some h' -> length own = hash_size ->
  (calm = true -> patient m /\ inherits = false) -> host_ok scripts h'.
Proof.
  intros K H Lo Cm. destruct m as [i|i|i n|i| |n| | |i]; cbn [move_run] in H.
  - destruct (nth_error (h_peers h) i) as [[l u g [] [] d [r|]]|] eqn:Hp; try discriminate H. injection H as <-.
    destruct (phase_is _ _ _ _ K Hp) as [P1 P2]. cbn [pe_phase] in P1, P2. cbn [set_peer h_queue h_current h_mismatch].
    eapply replace_ok; eauto; cbn [pe_phase pe_got].
    + intros s Hs (E & C & G & U & D & R & _). cbn in *. subst. repeat split; auto.
    + intros j Hj. rewrite in_app_iff. split; [intros [I|[->|[]]]; [exact I|congruence]|auto].
    + split; [reflexivity|]. intros _. apply in_or_app. right. now left.
    + assert (X : ~ In i (h_queue h)) by (rewrite P1; discriminate).
      pose proof (ok_nodup _ _ K) as ND. clear -X ND. induction (h_queue h) as [|x q IH]; cbn; [repeat constructor; auto|].
      inversion ND; subst. constructor; [rewrite in_app_iff; intros [I|[->|[]]]; [auto|apply X; now left]|]. apply IH; [intros I; apply X; now right|assumption].
    + intros j _. reflexivity.
    + rewrite P2. split; discriminate.
    + intros M. split; [exact M|]. exact (ok_other _ _ K M i _ Hp).
  - destruct (nth_error (h_peers h) i) as [[l u g [] [] d [r|]]|] eqn:Hp; try discriminate H. injection H as <-.
    destruct (phase_is _ _ _ _ K Hp) as [P1 P2]. cbn [pe_phase] in P1, P2.
    change (set_peer i ?q h) with (Ho (h_peers (set_peer i q h)) (h_queue h) (h_current h) (h_mismatch h)).
    eapply replace_ok; eauto; cbn [pe_phase pe_got]; try (intros j _; reflexivity).
    + intros s Hs (E & C & G & U & D & R & _). cbn in *. subst. repeat split; auto.
      destruct calm; [destruct (Cm eq_refl) as [[] _]|reflexivity].
    + rewrite P1. split; discriminate.
    + exact (ok_nodup _ _ K).
    + rewrite P2. split; discriminate.
    + intros M. split; [exact M|]. exact (ok_other _ _ K M i _ Hp).
  - destruct (nth_error (h_peers h) i) as [[l u g ph [] d r]|] eqn:Hp; try discriminate H.
    assert (X : host_ok scripts (set_peer i (Pe (skipn n l) (u ++ firstn n l) g ph false d r) h) \/ ph = Away).
    { destruct ph; try (now right); left; (eapply same_ok; [exact K|exact Hp|reflexivity|reflexivity|]); intros s Hs (E & C & W); cbn [pe_got pe_up pe_left pe_closed pe_phase pe_down pe_result] in *;
        (split; [cbn [pe_got pe_up pe_left]; rewrite E; f_equal; rewrite <- app_assoc; now rewrite firstn_skipn|split; [exact C|exact W]]). }
    destruct ph; try discriminate H; destruct ((0 <? n) && (n <=? length l)); try discriminate H; injection H as <-;
      (destruct X as [X|X]; [exact X|discriminate X]).
  - destruct (nth_error (h_peers h) i) as [[l u g ph [] d r]|] eqn:Hp; try discriminate H.
    assert (X : host_ok scripts (set_peer i (Pe l u g ph true d r) h) \/ ph = Away).
    { destruct ph; try (now right); left; (eapply same_ok; [exact K|exact Hp|reflexivity|reflexivity|]); intros s Hs (E & C & W); cbn in *;
        (split; [exact E|split; [intros T; destruct (Cm T) as [[] _]|exact W]]). }
    destruct ph; try discriminate H; injection H as <-; (destruct X as [X|X]; [exact X|discriminate X]).
  - destruct (h_current h) as [c|] eqn:Hc; [discriminate H|]. destruct (h_queue h) as [|i q] eqn:HQ; [discriminate H|].
    destruct (nth_error (h_peers h) i) as [p|] eqn:Hp; [|discriminate H]. injection H as <-.
    destruct (phase_is _ _ _ _ K Hp) as [P1 P2]. rewrite HQ in P1. assert (Ph : pe_phase p = Queued) by (apply P1; now left).
    pose proof (ok_nodup _ _ K) as ND. rewrite HQ in ND. inversion ND as [|? ? Ni Nq]; subst.
    eapply replace_ok; eauto; cbn [pe_phase pe_got with_phase set_peer h_mismatch].
    + intros s Hs (E & C & W). rewrite Ph in W. destruct W as (G & D & R). repeat split; auto. cbn [with_phase pe_got]. rewrite G. cbn. unfold hash_size. lia.
    + intros j Hj. rewrite HQ. cbn. split; [auto|]. intros [->|I]; [congruence|exact I].
    + split; [intros I; congruence|discriminate].
    + intros j Hj. rewrite Hc. split; [congruence|discriminate].
    + split; reflexivity.
    + intros M. split; [exact M|]. exact (ok_other _ _ K M i _ Hp).
  - destruct (h_current h) as [i|] eqn:Hc; [|discriminate H].
    destruct (nth_error (h_peers h) i) as [[l u g ph c d r]|] eqn:Hp; [|discriminate H].
    destruct ((0 <? n) && (n <=? length u) && (length g + n <=? hash_size)) eqn:Q; [|discriminate H].
    rewrite !andb_true_iff, Nat.ltb_lt, !Nat.leb_le in Q. destruct Q as [[Q1 Q2] Q3].
    destruct (phase_is _ _ _ _ K Hp) as [P1 P2]. cbn [pe_phase] in P1, P2. assert (ph = Reading) by (now apply P2). subst ph.
    assert (Sp : forall s : bytes, s = g ++ u ++ l -> s = (g ++ firstn n u) ++ skipn n u ++ l).
    { intros s ->. rewrite <- app_assoc. f_equal. rewrite app_assoc. now rewrite firstn_skipn. }
    assert (Lg : length (g ++ firstn n u) = length g + n) by (rewrite app_length, firstn_length; lia).
    cbn [pe_got] in H. destruct (Nat.eqb_spec (length (g ++ firstn n u)) hash_size) as [L8|L8]; injection H as <-.
    + unfold decide. cbn [pe_left pe_up pe_got pe_closed pe_down pe_result set_peer h_queue h_mismatch].
      destruct (list_eq_dec ascii_dec (g ++ firstn n u) own) as [Eo|Eo]; cbn [negb andb].
      * eapply replace_ok; eauto; cbn [pe_phase pe_got].
        -- intros s Hs (E & C & W). cbn in E, C, W. destruct W as (W1 & -> & ->). split; [cbn [pe_got pe_up pe_left]; now apply Sp|].
           split; [exact C|]. destruct c; cbn; [|auto]. split; [reflexivity|]. split; [auto|]. intros T. discriminate (C T).
        -- intros j _. reflexivity.
        -- rewrite P1. destruct c; split; discriminate.
        -- exact (ok_nodup _ _ K).
        -- intros j Hj. rewrite Hc. split; [discriminate|congruence].
        -- destruct c; split; discriminate.
        -- intros M. rewrite orb_false_r in M. now left.
        -- intros M. rewrite orb_false_r in M. auto.
      * eapply replace_ok; eauto; cbn [pe_phase pe_got].
        -- intros s Hs (E & C & W). cbn in E, C, W. destruct W as (W1 & -> & ->). split; [cbn [pe_got pe_up pe_left]; now apply Sp|].
           split; [exact C|]. cbn. auto.
        -- intros j _. reflexivity.
        -- rewrite P1. split; discriminate.
        -- exact (ok_nodup _ _ K).
        -- intros j Hj. rewrite Hc. split; [discriminate|congruence].
        -- split; discriminate.
        -- intros M. rewrite orb_true_r in M. discriminate M.
    + change (set_peer i ?q h) with (Ho (h_peers (set_peer i q h)) (h_queue h) (h_current h) (h_mismatch h)).
      eapply replace_ok; eauto; cbn [pe_phase pe_got]; try (intros j _; reflexivity).
      * intros s Hs (E & C & W). cbn in E, C, W. destruct W as (W1 & W2 & W3). split; [cbn [pe_got pe_up pe_left]; now apply Sp|].
        split; [exact C|]. cbn. repeat split; auto. lia.
      * exact (ok_nodup _ _ K).
      * intros M. split; [exact M|]. intros X. congruence.
  - destruct (h_current h) as [i|] eqn:Hc; [|discriminate H].
    destruct (nth_error (h_peers h) i) as [p|] eqn:Hp; [|discriminate H].
    destruct (pe_closed p) eqn:Cl; [|discriminate H]. destruct (length (pe_up p) =? 0); [|discriminate H]. injection H as <-.
    destruct (phase_is _ _ _ _ K Hp) as [P1 P2]. assert (Ph : pe_phase p = Reading) by now apply P2. unfold refuse.
    cbn [set_peer h_queue h_mismatch].
    eapply replace_ok; eauto; cbn [pe_phase pe_got with_phase].
    + intros s Hs (E & C & W). rewrite Ph in W. destruct W as (W1 & W2 & W3). split; [exact E|]. split; [exact C|]. split; [exact W2|]. split; [now left|]. intros T. specialize (C T). congruence.
    + intros j _. reflexivity.
    + rewrite P1, Ph. split; discriminate.
    + exact (ok_nodup _ _ K).
    + intros j Hj. rewrite Hc. split; [discriminate|congruence].
    + split; discriminate.
    + intros M. split; [exact M|]. exact (ok_other _ _ K M i _ Hp).
  - destruct (h_current h) as [i|] eqn:Hc; [|discriminate H].
    destruct (nth_error (h_peers h) i) as [p|] eqn:Hp; [|discriminate H].
    destruct inherits eqn:In; [|discriminate H]. cbn [andb] in H.
    destruct ((length (pe_up p) =? 0) && negb (pe_closed p)); [|discriminate H]. injection H as <-.
    destruct (phase_is _ _ _ _ K Hp) as [P1 P2]. assert (Ph : pe_phase p = Reading) by now apply P2. unfold refuse.
    cbn [set_peer h_queue h_mismatch].
    eapply replace_ok; eauto; cbn [pe_phase pe_got with_phase].
    + intros s Hs (E & C & W). rewrite Ph in W. destruct W as (W1 & W2 & W3). split; [exact E|]. split; [exact C|]. split; [exact W2|]. split; [now left|]. intros T. destruct (Cm T). discriminate.
    + intros j _. reflexivity.
    + rewrite P1, Ph. split; discriminate.
    + exact (ok_nodup _ _ K).
    + intros j Hj. rewrite Hc. split; [discriminate|congruence].
    + split; discriminate.
    + intros M. split; [exact M|]. exact (ok_other _ _ K M i _ Hp).
  - destruct (nth_error (h_peers h) i) as [[l u g ph [] d [r|]]|] eqn:Hp; try discriminate H.
    destruct d as [|c d].
    + destruct ph; try discriminate H. injection H as <-. eapply same_ok; [exact K|exact Hp|reflexivity|reflexivity|].
      intros s Hs (E & C & W1 & W2 & W3). split; [exact E|]. split; [exact C|]. split; [exact W1|]. split; [now right|exact W3].
    + destruct (hash_size <=? length g + length u); [|discriminate H]. injection H as <-.
      eapply same_ok; [exact K|exact Hp|reflexivity|reflexivity|].
      intros s Hs (E & C & W). cbn in E, C, W. split; [exact E|]. split; [exact C|]. cbn.
      destruct ph; try (exfalso; intuition discriminate). destruct W as [-> [[W _]|[W _]]]; [|discriminate W].
      injection W as -> ->. split; [reflexivity|]. right. split; reflexivity.
Qed.
Lemma moves_ok scripts l : forall h h', host_ok scripts h -> moves_run own inherits l h = Some h' -> length own = hash_size ->
  (calm = true -> Forall patient l /\ inherits = false) -> host_ok scripts h'.
Proof.
  induction l as [|m l IH]; intros h h' K H Lo Cm; cbn [moves_run] in H; [now injection H as <-|].
  destruct (move_run own inherits m h) as [h1|] eqn:H1; [|discriminate H]. eapply IH; [|exact H|exact Lo|].
  - eapply move_ok; eauto. intros T. destruct (Cm T) as [F I]. now inversion F.
  - intros T. destruct (Cm T) as [F I]. inversion F; auto.
Qed.
End Invariant.

(** Whoever is accepted sent the version of the host, and nothing else was read: all that
    follows is read as messages.  Whoever got a connection was accepted.  When the versions
    are taken to differ, somebody sent another one. *)
Theorem C110_accepted : forall own inherits scripts l h, length own = hash_size ->
  moves_run own inherits l (start scripts) = Some h ->
  (forall i p, nth_error (h_peers h) i = Some p -> pe_result p = Some true -> pe_phase p = Accepted) /\
  (forall i p s, nth_error (h_peers h) i = Some p -> nth_error scripts i = Some s -> pe_phase p = Accepted ->
     s = own ++ pe_up p ++ pe_left p) /\
  (h_mismatch h = true -> exists s, In s scripts /\ hash_size <= length s /\ firstn hash_size s <> own).
Proof.
  intros own inherits scripts l h Lo H.
  assert (K : host_ok own false scripts h).
  { eapply moves_ok; [apply start_ok|exact H|exact Lo|intros [=]]. }
  split; [|split].
  - intros i p Hp R. destruct (nth_error scripts i) as [s|] eqn:Hs.
    + destruct (ok_peers _ _ _ _ K i s p Hs Hp) as (_ & _ & W). destruct (pe_phase p); try reflexivity; exfalso; intuition congruence.
    + apply nth_error_None in Hs. rewrite <- (ok_length _ _ _ _ K) in Hs. apply nth_error_None in Hs. congruence.
  - intros i p s Hp Hs Ph. destruct (ok_peers _ _ _ _ K i s p Hs Hp) as (E & _ & W). rewrite Ph in W. destruct W as [<- _]. exact E.
  - exact (ok_mismatch _ _ _ _ K).
Qed.
Print Assumptions C110_accepted.

(** The server ends only because of a process of another version, and not while it reads
    from one. *)
Theorem C110_stopped : forall own inherits scripts l h, length own = hash_size ->
  moves_run own inherits l (start scripts) = Some h -> server_ends h = true ->
  (forall i p, nth_error (h_peers h) i = Some p -> pe_phase p <> Reading) /\
  exists s, In s scripts /\ hash_size <= length s /\ firstn hash_size s <> own.
Proof.
  intros own inherits scripts l h Lo H Ends.
  assert (K : host_ok own false scripts h).
  { eapply moves_ok; [apply start_ok|exact H|exact Lo|intros [=]]. }
  unfold server_ends in Ends. apply andb_prop in Ends as [M C]. split; [|exact (ok_mismatch _ _ _ _ K M)].
  intros i p Hp R. apply (phase_is _ _ _ _ _ _ K Hp) in R. rewrite R in C. discriminate.
Qed.
Print Assumptions C110_stopped.

(** When nobody gives up and every process sends its version, everybody gets an answer: those
    of the version of the host a connection, the others none.  However they are
    interleaved, and wherever what they send is cut. *)
Theorem C110_served : forall own scripts l h, length own = hash_size -> Forall is_hash scripts ->
  moves_run own false l (start scripts) = Some h -> Forall patient l -> at_rest own false h ->
  forall i s p, nth_error scripts i = Some s -> nth_error (h_peers h) i = Some p ->
    pe_result p = Some (if list_eq_dec ascii_dec s own then true else false).
Proof.
  intros own scripts l h Lo Sh H Pt Rest.
  assert (K : host_ok own true scripts h) by (eapply moves_ok; [apply start_ok|exact H|exact Lo|now split]).
  (* nobody is left with something to send *)
  assert (Sent : forall i p, nth_error (h_peers h) i = Some p ->
    pe_left p = [] \/ pe_phase p = Away \/ pe_phase p = Refused \/ pe_phase p = GaveUp).
  { intros i [l0 u g ph c d r] Hp. destruct l0 as [|x l0]; [now left|right]. specialize (Rest (MSend i 1) Logic.I). cbn [move_run] in Rest. rewrite Hp in Rest.
    destruct (nth_error scripts i) as [s|] eqn:Hs.
    - destruct (ok_peers _ _ _ _ K i s _ Hs Hp) as (_ & C & _). cbn in C. rewrite (C eq_refl) in Rest. destruct ph; cbn in *; auto; discriminate Rest.
    - apply nth_error_None in Hs. rewrite <- (ok_length _ _ _ _ K) in Hs. apply nth_error_None in Hs. congruence. }
  assert (Script : forall i p, nth_error (h_peers h) i = Some p -> exists s, nth_error scripts i = Some s /\ length s = hash_size /\ peer_ok own true s p).
  { intros i p Hp. destruct (nth_error scripts i) as [s|] eqn:Hs.
    - exists s. split; [reflexivity|]. split; [|exact (ok_peers _ _ _ _ K i s p Hs Hp)].
      rewrite Forall_forall in Sh. apply Sh. eapply nth_error_In; exact Hs.
    - apply nth_error_None in Hs. rewrite <- (ok_length _ _ _ _ K) in Hs. apply nth_error_None in Hs. congruence. }
  (* nobody's version is being read *)
  assert (Idle : h_current h = None).
  { destruct (h_current h) as [i|] eqn:Hc; [exfalso|reflexivity].
    destruct (proj1 (ok_current _ _ _ _ K i) Hc) as (p & Hp & Ph). destruct (Script i p Hp) as (s & Hs & Ls & E & C & W). rewrite Ph in W.
    destruct W as (Lg & _). destruct (Sent i p Hp) as [Sl|[Sl|[Sl|Sl]]]; try congruence.
    assert (Lu : 0 < length (pe_up p)). { rewrite E, !app_length, Sl in Ls. cbn in Ls. lia. }
    specialize (Rest (MRecv 1) Logic.I). cbn [move_run] in Rest. rewrite Hc, Hp in Rest. destruct p as [l0 u g ph c d r]. cbn [pe_up pe_got] in Lu, Lg.
    destruct (1 <=? length u) eqn:Q; [|apply Nat.leb_gt in Q; lia]. destruct (length g + 1 <=? hash_size) eqn:Q'; [|apply Nat.leb_gt in Q'; lia].
    cbn [andb Nat.ltb Nat.leb] in Rest. cbn [pe_got] in Rest. destruct (length (g ++ firstn 1 u) =? hash_size); discriminate Rest. }
  assert (Empty : h_queue h = []).
  { destruct (h_queue h) as [|i q] eqn:HQ; [reflexivity|exfalso]. assert (I : In i (h_queue h)) by (rewrite HQ; now left).
    destruct (proj1 (ok_queue _ _ _ _ K i) I) as (p & Hp & Ph). specialize (Rest MAccept Logic.I). cbn [move_run] in Rest. rewrite Idle, HQ, Hp in Rest. discriminate Rest. }
  intros i s p Hs Hp. destruct (Script i p Hp) as (s' & Hs' & Ls & E & C & W). rewrite Hs in Hs'. injection Hs' as <-. specialize (C eq_refl).
  pose proof (Rest (MAnswer i) Logic.I) as Ra. cbn [move_run] in Ra. pose proof (Rest (MConnect i) Logic.I) as Rc. cbn [move_run] in Rc. rewrite Hp in Ra, Rc.
  destruct p as [l0 u g ph c d r]. cbn [pe_left pe_up pe_got pe_phase pe_closed pe_down pe_result] in *. subst c.
  destruct ph.
  - destruct W as (-> & -> & -> & -> & _). discriminate Rc.
  - exfalso. assert (I : In i (h_queue h)) by (apply (ok_queue _ _ _ _ K); eexists; split; [exact Hp|reflexivity]). rewrite Empty in I. exact I.
  - exfalso. assert (I : h_current h = Some i) by (apply (ok_current _ _ _ _ K); eexists; split; [exact Hp|reflexivity]). congruence.
  - destruct W as [-> [[-> ->]|[-> ->]]].
    + cbn [write_bool le] in Ra. destruct (hash_size <=? length own + length u) eqn:Q; [discriminate Ra|]. apply Nat.leb_gt in Q. lia.
    + rewrite E, !app_length in Ls. assert (u = [] /\ l0 = []) as [-> ->] by (split; apply length_zero_iff_nil; lia). cbn in E. rewrite app_nil_r in E. subst s.
      destruct (list_eq_dec ascii_dec own own); congruence.
  - destruct W as (-> & [->| ->] & G); [discriminate Ra|]. destruct (G eq_refl) as [G1 G2].
    rewrite E, !app_length in Ls. assert (u = [] /\ l0 = []) as [-> ->] by (split; apply length_zero_iff_nil; lia). cbn in E. rewrite app_nil_r in E. subst s.
    destruct (list_eq_dec ascii_dec g own); congruence.
  - destruct W as [[=] _].
Qed.
Print Assumptions C110_served.

(** It takes a bounded number of moves, so it comes to rest. *)
Definition weight (p : peer) : nat :=
  2 * length (pe_left p) + length (pe_up p) +
  match pe_phase p with Away => 4 | Queued => 3 | Reading => 2 | Accepted | Refused => 1 | GaveUp => 0 end +
  (if pe_closed p then 0 else 1) + match pe_result p with None => 1 | Some _ => 0 end.
Definition total (h : host) : nat := list_sum (map weight (h_peers h)).
Lemma total_set i p q h Q c m : nth_error (h_peers h) i = Some p ->
  total (Ho (h_peers (set_peer i q h)) Q c m) + weight p = total h + weight q.
Proof.
  unfold total. cbn [set_peer h_peers]. generalize (h_peers h) as ps. intros ps. revert i.
  induction ps as [|x ps IH]; intros [|i] Hp; try discriminate Hp; cbn [update_at map list_sum fold_right] in *.
  - injection Hp as ->. unfold list_sum. lia.
  - specialize (IH i Hp). unfold list_sum in *. lia.
Qed.
Tactic Notation "tot" constr(Hp) ident(X) := unfold total; cbv zeta; cbn [h_peers set_peer];
  match goal with |- context [update_at ?i (fun _ => ?q) (h_peers ?h)] =>
    pose proof (total_set i _ q h [] None false Hp) as X; unfold total in X; cbn [h_peers set_peer] in X;
    generalize dependent (list_sum (map weight (update_at i (fun _ => q) (h_peers h)))); intros ? X;
    generalize dependent (list_sum (map weight (h_peers h))); intros ? X end.
Lemma move_less own inherits scripts calm m h h' : host_ok own calm scripts h -> move_run own inherits m h = Some h' -> total h' < total h.
Proof.
  intros K H. destruct m as [i|i|i n|i| |n| | |i]; cbn [move_run] in H.
  - destruct (nth_error (h_peers h) i) as [[l u g [] [] d [r|]]|] eqn:Hp; try discriminate H. injection H as <-.
    tot Hp X. unfold weight in X. cbn in X. lia.
  - destruct (nth_error (h_peers h) i) as [[l u g [] [] d [r|]]|] eqn:Hp; try discriminate H. injection H as <-.
    tot Hp X. unfold weight in X. cbn in X. lia.
  - destruct (nth_error (h_peers h) i) as [[l u g ph [] d r]|] eqn:Hp; try discriminate H.
    assert (Less : 0 < n -> n <= length l -> total (set_peer i (Pe (skipn n l) (u ++ firstn n l) g ph false d r) h) < total h).
    { intros Q1 Q2. tot Hp X. unfold weight in X. cbn [pe_left pe_up pe_phase pe_closed pe_result] in X. rewrite app_length, firstn_length, skipn_length in X. lia. }
    destruct ph; try discriminate H; destruct (0 <? n) eqn:Q1; try discriminate H; destruct (n <=? length l) eqn:Q2; try discriminate H;
      injection H as <-; apply Nat.ltb_lt in Q1; apply Nat.leb_le in Q2; now apply Less.
  - destruct (nth_error (h_peers h) i) as [[l u g ph [] d r]|] eqn:Hp; try discriminate H.
    assert (Less : total (set_peer i (Pe l u g ph true d r) h) < total h).
    { tot Hp X. unfold weight in X. cbn [pe_left pe_up pe_phase pe_closed pe_result] in X. lia. }
    destruct ph; try discriminate H; injection H as <-; exact Less.
  - destruct (h_current h) as [c|] eqn:Hc; [discriminate H|]. destruct (h_queue h) as [|i q] eqn:HQ; [discriminate H|].
    destruct (nth_error (h_peers h) i) as [p|] eqn:Hp; [|discriminate H]. injection H as <-.
    destruct (phase_is _ _ _ _ _ _ K Hp) as [P1 _]. assert (Ph : pe_phase p = Queued) by (apply P1; rewrite HQ; now left).
    tot Hp X.
    unfold weight in X. cbn [with_phase pe_left pe_up pe_phase pe_closed pe_result] in X. rewrite Ph in X. lia.
  - destruct (h_current h) as [i|] eqn:Hc; [|discriminate H].
    destruct (nth_error (h_peers h) i) as [[l u g ph c d r]|] eqn:Hp; [|discriminate H].
    destruct ((0 <? n) && (n <=? length u) && (length g + n <=? hash_size)) eqn:Q; [|discriminate H].
    rewrite !andb_true_iff, Nat.ltb_lt, !Nat.leb_le in Q. destruct Q as [[Q1 Q2] Q3].
    destruct (phase_is _ _ _ _ _ _ K Hp) as [_ P2]. assert (ph = Reading) by (now apply P2). subst ph.
    cbn [pe_got] in H. destruct (length (g ++ firstn n u) =? hash_size); injection H as <-.
    + unfold decide. tot Hp X.
      unfold weight in X. cbn [pe_left pe_up pe_phase pe_closed pe_result] in X. rewrite skipn_length in X.
      destruct (list_eq_dec ascii_dec (pe_got (Pe l (skipn n u) (g ++ firstn n u) Reading c d r)) own), c; cbn [negb andb] in X; cbn [negb andb]; lia.
    + tot Hp X.
      unfold weight in X. cbn [pe_left pe_up pe_phase pe_closed pe_result] in X. rewrite skipn_length in X.  lia.
  - destruct (h_current h) as [i|] eqn:Hc; [|discriminate H].
    destruct (nth_error (h_peers h) i) as [p|] eqn:Hp; [|discriminate H].
    destruct (pe_closed p && (length (pe_up p) =? 0)); [|discriminate H]. injection H as <-.
    destruct (phase_is _ _ _ _ _ _ K Hp) as [_ P2]. assert (Ph : pe_phase p = Reading) by now apply P2. unfold refuse.
    tot Hp X.
    unfold weight in X. cbn [with_phase pe_left pe_up pe_phase pe_closed pe_result] in X. rewrite Ph in X. lia.
  - destruct (h_current h) as [i|] eqn:Hc; [|discriminate H].
    destruct (nth_error (h_peers h) i) as [p|] eqn:Hp; [|discriminate H].
    destruct (inherits && (length (pe_up p) =? 0) && negb (pe_closed p)); [|discriminate H]. injection H as <-.
    destruct (phase_is _ _ _ _ _ _ K Hp) as [_ P2]. assert (Ph : pe_phase p = Reading) by now apply P2. unfold refuse.
    tot Hp X.
    unfold weight in X. cbn [with_phase pe_left pe_up pe_phase pe_closed pe_result] in X. rewrite Ph in X. lia.
  - destruct (nth_error (h_peers h) i) as [[l u g ph [] d [r|]]|] eqn:Hp; try discriminate H.
    assert (Any : forall d' b, total (set_peer i (Pe l u g ph false d' (Some b)) h) < total h).
    { intros d' b. tot Hp X.
      unfold weight in X. cbn [pe_left pe_up pe_phase pe_closed pe_result] in X.  lia. }
    destruct d as [|c d]; [destruct ph; try discriminate H; injection H as <-; apply Any|].
    destruct (hash_size <=? length g + length u); [|discriminate H]. injection H as <-. apply Any.
Qed.
Theorem C110_ends : forall own inherits scripts l h, length own = hash_size ->
  moves_run own inherits l (start scripts) = Some h ->
  length l <= list_sum (map (fun s : bytes => 2 * length s + 6) scripts).
Proof.
  intros own inherits scripts l h Lo H.
  assert (X : forall l h0 h, host_ok own false scripts h0 -> moves_run own inherits l h0 = Some h -> length l + total h <= total h0).
  { clear -Lo. induction l as [|m l IH]; intros h0 h K H; cbn [moves_run length] in *; [injection H as <-; lia|].
    destruct (move_run own inherits m h0) as [h1|] eqn:H1; [|discriminate H].
    pose proof (move_less _ _ _ _ _ _ _ K H1) as L. assert (K1 : host_ok own false scripts h1) by (eapply move_ok; [exact K|exact H1|exact Lo|intros [=]]).
    specialize (IH h1 h K1 H). lia. }
  specialize (X l (start scripts) h (start_ok own false scripts) H).
  assert (T : total (start scripts) = list_sum (map (fun s : bytes => 2 * length s + 6) scripts)).
  { unfold total. cbn [start h_peers]. rewrite map_map. f_equal. apply map_ext. intros s. unfold weight. cbn. lia. }
  lia.
Qed.
Print Assumptions C110_ends.

(** *** A case: two clients of the version of the host and one of another, cut in pieces *)
Definition v1 : bytes := le 8 0x1234567890ABCDEF.
Definition v2 : bytes := le 8 0x0234567890ABCDEF.
Definition three_clients : list move :=
  [MConnect 2; MConnect 0; MSend 0 3; MAccept; MSend 2 8; MRecv 5; MRecv 3; MAccept; MConnect 1; MRecv 2; MSend 0 5; MAnswer 2;
   MRecv 6; MAccept; MAnswer 0; MSend 1 8; MRecv 8; MAnswer 1].
Example C110_case : exists h, Forall is_hash [v1; v2; v1] /\ length v1 = hash_size /\ Forall patient three_clients /\
  moves_run v1 false three_clients (start [v1; v2; v1]) = Some h /\ at_rest v1 false h /\
  map pe_result (h_peers h) = [Some true; Some false; Some true] /\ h_mismatch h = true.
Proof.
  eexists. split; [repeat constructor|]. split; [reflexivity|]. split; [repeat constructor|]. split; [vm_compute; reflexivity|].
  split; [|split; vm_compute; reflexivity].
  intros m Pm. destruct m as [i|i|i n|i| |n| | |i]; try (now elim Pm); cbn [move_run h_current h_queue h_peers]; try reflexivity;
    (destruct i as [|[|[|i]]]; [| | |destruct i]); try reflexivity; cbn [nth_error]; destruct n; reflexivity.
Qed.

(** A process which connects and sends nothing keeps everybody else from being connected,
    for ever. *)
Theorem C110_silent_refuted : exists own scripts l h, length own = hash_size /\ nth_error scripts 1 = Some own /\
  moves_run own false l (start scripts) = Some h /\ Forall patient l /\ at_rest own false h /\
  forall p, nth_error (h_peers h) 1 = Some p -> pe_result p = None.
Proof.
  exists v1, [[]; v1], [MConnect 0; MConnect 1; MAccept; MSend 1 8]. eexists.
  split; [reflexivity|]. split; [reflexivity|]. split; [vm_compute; reflexivity|]. split; [repeat constructor|]. split.
  - intros m Pm. destruct m as [i|i|i n|i| |n| | |i]; try (now elim Pm); cbn [move_run h_current h_queue h_peers]; try reflexivity;
      try (destruct i as [|[|[|i]]]); try reflexivity; cbn; try (destruct n; reflexivity).
  - intros p [= <-]. reflexivity.
Qed.
Print Assumptions C110_silent_refuted.

(** Where accepted sockets are non-blocking, a client of the same version is refused when it is
    accepted before it sent its version. *)
Theorem C110_inherits_refuted : exists own l h, length own = hash_size /\ Forall patient l /\
  moves_run own true l (start [own]) = Some h /\ map pe_result (h_peers h) = [Some false].
Proof.
  exists v1, [MConnect 0; MAccept; MWouldBlock; MAnswer 0]. eexists. split; [reflexivity|]. split; [repeat constructor|].
  split; vm_compute; reflexivity.
Qed.
Print Assumptions C110_inherits_refuted.

(** A process which sends anything else ends the server, whoever it is. *)
Theorem C110_stranger_refuted : exists own l h, length own = hash_size /\
  moves_run own false l (start [list_ascii_of_string "GET / HTTP/1.1"%string]) = Some h /\ server_ends h = true.
Proof.
  exists v1, [MConnect 0; MAccept; MSend 0 14; MRecv 8]. eexists. split; [reflexivity|]. split; vm_compute; reflexivity.
Qed.
Print Assumptions C110_stranger_refuted.
