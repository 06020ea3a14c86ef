(** Properties C49, C56, C59, C62 and C63 of keymapperctl and the client together, with
    their assumptions and a non-trivial instance beside each. *)
From Coq Require Import String Ascii List Arith NArith ZArith Bool Lia.
From Verif Require Import Base Key Text KeyNames Match ParseSeq Stage Config MultiStage Replay StageProperties
  Serial SerialSpec Client ClientSpec ClientProofs ClientContexts ClientControl ClientProperties
  Ctl CtlSpec CtlLink CtlSystem CtlExchange CtlResults CtlTimeout CtlCheck CtlLine.
Import ListNotations.
Local Open Scope N_scope.

(** [L] is a log of any run of the client and any run of keymapperctl, which are connected by
    sockets. *)
Definition runs (absolute : text -> option text) (at_client : nat -> N * nat) (L : log) : Prop :=
  exists search typer key_name system sent focus disk name steps connects sends incoming atoi fuel args,
    both (cl_trace (client_main search typer key_name system sent focus disk name steps))
         (g_trace (snd (ctl_main connects sends incoming absolute atoi fuel args))) at_client L /\
    short_infos (client_of L).

(** ** The runs of the examples *)

Definition ok (_ : nat) : bool := true.
Definition same_path (t : text) : option text := Some t.
Definition control (incoming : nat -> option bytes) (args : list text) : list geffect :=
  g_trace (snd (ctl_main ok ok incoming same_path (digits 0) 50 args)).
Definition reads (l : list bytes) (n : nat) : option bytes := nth_error l n.
Definition answered (k : key) (st : kstate) : bytes := frame (write_amsg (AVirtual k st)).
Definition logged (order : list (bool * nat)) (steps : list cstep) (incoming : nat -> option bytes) (args : list text) : log :=
  weave (turns order) (cl_trace (go always steps)) (control incoming args).
Definition no_infos (t : trace) : bool :=
  forallb (fun e => match e with FAnswer _ (ANextKeyInfo x) => N.of_nat (length (write_amsg (ANextKeyInfo x))) <? 2 ^ 32 | _ => true end) t.
Lemma logged_runs at_client order steps incoming args :
  deliversb at_client (logged order steps incoming args) = true ->
  no_infos (client_of (logged order steps incoming args)) = true ->
  runs same_path at_client (logged order steps incoming args).
Proof.
  intros H NI. unfold runs. exists find_sub, no_typer, no_names, (T "Linux"), (fun _ => true), windows, always, (T "a"), steps.
  exists ok, ok, incoming, (digits 0), 50%nat, args.
  split.
  - destruct (weave_parts (turns order) (cl_trace (go always steps)) (control incoming args)) as [A B].
    split; [exact A|]. split; [exact B|]. apply deliversb_sound. exact H.
  - intros s x I. unfold no_infos in NI. rewrite forallb_forall in NI. specialize (NI _ I). cbn in NI.
    apply N.ltb_lt. exact NI.
Qed.
(** The first operation of a log which begins at [i] and ends at [j]. *)
Definition op_at (L : log) (i j : nat) : log * log := (firstn i L, firstn (j - S i) (skipn (S i) L)).
Definition no_beginb (t : list geffect) : bool := forallb (fun e => match e with GBegin _ => false | _ => true end) t.
Lemma op_at_is L i j q r : nth_error L i = Some (AG (GBegin q)) -> nth_error L j = Some (AG (GEnd q r)) -> (i < j)%nat ->
  no_beginb (ctl_of (snd (op_at L i j))) = true -> operation L (fst (op_at L i j)) q (snd (op_at L i j)) r.
Proof.
  intros H1 H2 LT NB. exists (skipn (S j) L). split.
  - cbn [fst snd op_at].
    assert (CUT : forall {A} (l : list A) n x, nth_error l n = Some x -> l = firstn n l ++ x :: skipn (S n) l).
    { clear. intros A l. induction l as [|y l IH]; intros [|n] x H; try discriminate H; cbn in *; [injection H as ->; reflexivity|].
      f_equal. apply IH. exact H. }
    rewrite (CUT _ L i _ H1) at 1. f_equal. f_equal.
    assert (H3 : nth_error (skipn (S i) L) (j - S i) = Some (AG (GEnd q r))).
    { rewrite <- H2. rewrite <- (firstn_skipn (S i) L) at 2. assert (LL : length (firstn (S i) L) = S i).
      { apply firstn_length_le. assert (nth_error L j <> None) by congruence. apply nth_error_Some in H. lia. }
      rewrite nth_error_app2; rewrite LL; [reflexivity|lia]. }
    rewrite (CUT _ _ _ _ H3) at 1. f_equal. f_equal.
    assert (SK : forall {A} (l : list A) a b, skipn a (skipn b l) = skipn (b + a) l).
    { clear. intros A l a b. revert l. induction b as [|b IH]; intro l; [reflexivity|]. destruct l; [destruct a; reflexivity|apply IH]. }
    rewrite SK. f_equal. lia.
  - intros q' I. unfold no_beginb in NB. rewrite forallb_forall in NB. specialize (NB _ I). discriminate NB.
Qed.

Definition v0 : key := first_virtual.
Definition v1 : key := first_virtual + 1.
Definition v2 : key := first_virtual + 2.
(** The connection accepted with socket 5. *)
Definition fifth (_ : nat) : N * nat := (5, 4%nat).

(** ** C49 Waiting for a virtual key *)

(** An operation --wait-pressed of a known key succeeds only when the key was reported down at
    some moment between the beginning and the end of the operation. *)
Theorem C49_pressed_partial : forall absolute at_client L p q m k,
  runs absolute at_client L -> operation L p q m RYes -> undisturbed (ctl_of p) = true ->
  rq_type q = QtWaitPressed ->
  throughout (fun t => named (names_of t) (rq_string q) = k) (client_of p) (client_of m) ->
  k <> 0 -> k <> last_virtual -> only_changes k (client_of (p ++ m)) ->
  sometime (fun t => reported k t = true) (client_of p) (client_of m).
Proof.
  intros absolute at_client L p q m k (se & ty & kn & sy & st & fo & di & na & sp & co & sd & ic & at' & fu & ar & B & SI) OP U TY NM N1 N2 OC.
  apply (wait_state _ _ _ _ _ _ _ _ _ _ _ _ _ _ _ _ _ _ B SI p q m RYes k true); auto; discriminate.
Qed.
Print Assumptions C49_pressed_partial.

Theorem C49_released_partial : forall absolute at_client L p q m k,
  runs absolute at_client L -> operation L p q m RYes -> undisturbed (ctl_of p) = true ->
  rq_type q = QtWaitReleased ->
  throughout (fun t => named (names_of t) (rq_string q) = k) (client_of p) (client_of m) ->
  k <> 0 -> k <> last_virtual -> only_changes k (client_of (p ++ m)) ->
  sometime (fun t => reported k t = false) (client_of p) (client_of m).
Proof.
  intros absolute at_client L p q m k (se & ty & kn & sy & st & fo & di & na & sp & co & sd & ic & at' & fu & ar & B & SI) OP U TY NM N1 N2 OC.
  apply (wait_state _ _ _ _ _ _ _ _ _ _ _ _ _ _ _ _ _ _ B SI p q m RYes k false); auto; discriminate.
Qed.
Print Assumptions C49_released_partial.

(** An operation --wait-toggled succeeds only when the key was reported during the operation. *)
Theorem C49_toggled_partial : forall absolute at_client L p q m k,
  runs absolute at_client L -> operation L p q m RYes -> undisturbed (ctl_of p) = true ->
  rq_type q = QtWaitToggled ->
  throughout (fun t => named (names_of t) (rq_string q) = k) (client_of p) (client_of m) -> k <> 0 ->
  exists x, In (FGot (DVirtual k x)) (client_of m).
Proof.
  intros absolute at_client L p q m k (se & ty & kn & sy & st & fo & di & na & sp & co & sd & ic & at' & fu & ar & B & SI) OP U TY NM N1.
  apply (wait_toggled _ _ _ _ _ _ _ _ _ _ _ _ _ _ _ _ _ _ B SI p q m RYes k); auto; discriminate.
Qed.
Print Assumptions C49_toggled_partial.

(** Missing: names which are not known.  Waiting for such a key succeeds at once. *)
Definition unknown_log : log :=
  logged [(true, 5); (false, 3); (true, 2); (false, 2); (true, 2); (false, 2)]%nat
    [one_turn [] (Some 5) nothing; one_turn [] None (asks 5 [QGet (T "Nothing")]); one_turn [] None (asks 5 [QNotify (T "Nothing")])]
    (reads [answered 0 Not; answered 0 Not]) [T "--wait-pressed"; T "Nothing"].
Theorem C49_refuted : exists absolute at_client L p q m,
  runs absolute at_client L /\ operation L p q m RYes /\ undisturbed (ctl_of p) = true /\ rq_type q = QtWaitPressed /\
  forall k, reported k (client_of (p ++ m)) = false.
Proof.
  exists same_path, fifth, unknown_log, (fst (op_at unknown_log 6 15)), (Rq QtWaitPressed (T "Nothing") None), (snd (op_at unknown_log 6 15)).
  split; [apply logged_runs; vm_compute; reflexivity|].
  split; [apply op_at_is; [vm_compute; reflexivity|vm_compute; reflexivity|lia|vm_compute; reflexivity]|].
  split; [vm_compute; reflexivity|]. split; [reflexivity|]. intro k. vm_compute. reflexivity.
Qed.
Print Assumptions C49_refuted.

(** The key, which has a name in the configuration, goes down after the notification was
    requested. *)
Definition wait_log : log :=
  logged [(true, 5); (false, 3); (true, 2); (false, 2); (true, 5); (false, 2)]%nat
    [one_turn [] (Some 5) nothing; one_turn [] None (asks 5 [QGet (T "Foo")]);
     one_turn [] None (asks 5 [QNotify (T "Foo")]); one_turn [DVirtual (first_virtual + 7) 1] None nothing]
    (reads [answered (first_virtual + 7) Up; answered (first_virtual + 7) Down]) [T "--wait-pressed"; T "Foo"].
Example C49_case : exists L p q m, runs same_path fifth L /\ operation L p q m RYes /\ undisturbed (ctl_of p) = true /\
  rq_type q = QtWaitPressed /\
  throughout (fun t => named (names_of t) (rq_string q) = first_virtual + 7) (client_of p) (client_of m) /\
  only_changes (first_virtual + 7) (client_of (p ++ m)) /\
  reported (first_virtual + 7) (client_of p) = false.
Proof.
  exists wait_log, (fst (op_at wait_log 6 18)), (Rq QtWaitPressed (T "Foo") None), (snd (op_at wait_log 6 18)).
  split; [apply logged_runs; vm_compute; reflexivity|].
  split; [apply op_at_is; [vm_compute; reflexivity|vm_compute; reflexivity|lia|vm_compute; reflexivity]|].
  split; [vm_compute; reflexivity|]. split; [reflexivity|].
  split; [apply throughout_name; vm_compute; reflexivity|].
  split; [apply changesb_sound; vm_compute; reflexivity|]. vm_compute. reflexivity.
Qed.

(** ** C56 The result of an operation is the answer to its own request *)

(** When no earlier operation on the connection timed out or failed, the client got the request
    of the operation and answered it during the operation.  The result is this answer; it
    reports the state the key had when the client answered. *)
Theorem C56_partial : forall absolute at_client L p q m r call,
  runs absolute at_client L -> operation L p q m r -> undisturbed (ctl_of p) = true ->
  r <> RFailed -> r <> RTimeout -> call_of absolute q = Some call ->
  exists s v1 v2 k st v3, client_of m = v1 ++ FAsked s call :: v2 ++ FAnswer s (AVirtual k st) :: v3 /\
    r = verdict (rq_type q) st /\
    (forall n, call = QGet n -> k = named (names_of (client_of p ++ v1)) n /\ (k = 0 -> st = Not) /\
       (k <> 0 -> k <> last_virtual ->
        st = if reported k (client_of p ++ v1 ++ FAsked s call :: v2) then Down else Up)) /\
    (forall n x, call = QSet n x -> k = named (names_of (client_of p ++ v1)) n /\ (k = 0 -> st = Not) /\
       (k <> 0 -> st = Up \/ st = Down)).
Proof.
  intros absolute at_client L p q m r call (se & ty & kn & sy & st & fo & di & na & sp & co & sd & ic & at' & fu & ar & B & SI) OP U N1 N2 CA.
  exact (results_own _ _ _ _ _ _ _ _ _ _ _ _ _ _ _ _ _ _ B SI p q m r call OP U N1 N2 CA).
Qed.
Print Assumptions C56_partial.

(** --stdout prints the code of the result so far and keeps it (README.md:464, the codes of
    main.cpp:8-15 as digits). *)
Definition printed_code (r : result) : text :=
  match r with RYes => T "0" | RNo => T "1" | RInvalid => T "2" | RFailed => T "3" | RTimeout => T "4" | RNotFound => T "5" end.
Theorem C56_stdout : forall sends arrives absolute q last c, rq_type q = QtStdout ->
  let '(r, c') := make_request sends arrives absolute q last c in
  r = last /\ g_trace c' = g_trace c ++ [GBegin q; GPrint (printed_code last); GEnd q last].
Proof.
  intros sends arrives absolute q last c Q. unfold make_request, perform. rewrite Q. cbn.
  split; [reflexivity|]. rewrite <- !app_assoc. destruct last; reflexivity.
Qed.
Print Assumptions C56_stdout.
Example C56_stdout_case : g_trace (snd (make_request (fun _ => true) (fun _ => None) (fun _ => None) (Rq QtStdout [] None) RTimeout new_ctl)) =
  [GBegin (Rq QtStdout [] None); GPrint (T "4"); GEnd (Rq QtStdout [] None) RTimeout].
Proof. reflexivity. Qed.

(** What --next-key-info prints is the information about a key which was pressed since. *)
Theorem C56_next_partial : forall absolute at_client L p q m r,
  runs absolute at_client L -> operation L p q m r -> undisturbed (ctl_of p) = true ->
  r <> RFailed -> r <> RTimeout -> rq_type q = QtNextKey ->
  exists s v1 v2 v3 v4 k n i x, client_of m = v1 ++ FAsked s QNextKey :: v2 ++ FGot (DNextKeyInfo k n i) :: v3 ++
      FAnswer s (ANextKeyInfo x) :: v4 /\
    In (GPrint x) (ctl_of m).
Proof.
  intros absolute at_client L p q m r (se & ty & kn & sy & st & fo & di & na & sp & co & sd & ic & at' & fu & ar & B & SI) OP U N1 N2 TY.
  exact (next_own _ _ _ _ _ _ _ _ _ _ _ _ _ _ _ _ _ _ B SI p q m r OP U N1 N2 TY).
Qed.
Print Assumptions C56_next_partial.

(** Missing: operations after one which timed out.  The answer to the first request arrives
    late and is taken for the one to the second, which the client never got. *)
Definition stale_log : log :=
  logged [(true, 6); (false, 7); (true, 2); (false, 2)]%nat
    [one_turn [DVirtual v1 1] (Some 5) nothing; one_turn [] None (asks 5 [QGet (T "Virtual1")])]
    (reads [[]; answered v1 Down]) [T "--timeout"; T "1"; T "--is-pressed"; T "Virtual1"; T "--is-pressed"; T "Virtual2"].
Theorem C56_refuted : exists absolute at_client L p q m,
  runs absolute at_client L /\ operation L p q m RYes /\
  rq_type q = QtIsPressed /\ rq_string q = T "Virtual2" /\
  (forall s, ~ In (FAsked s (QGet (T "Virtual2"))) (client_of (p ++ m))) /\
  reported v2 (client_of (p ++ m)) = false.
Proof.
  exists same_path, (fun _ => (5, 5%nat)), stale_log, (fst (op_at stale_log 11 16)),
    (Rq QtIsPressed (T "Virtual2") (Some 1%Z)), (snd (op_at stale_log 11 16)).
  split; [apply logged_runs; vm_compute; reflexivity|].
  split; [apply op_at_is; [vm_compute; reflexivity|vm_compute; reflexivity|lia|vm_compute; reflexivity]|].
  split; [reflexivity|]. split; [reflexivity|]. split; [|vm_compute; reflexivity].
  apply never_asked. vm_compute. reflexivity.
Qed.
Print Assumptions C56_refuted.

(** The second operation of three, the state changes between the first and the second. *)
Definition own_log : log :=
  logged [(true, 5); (false, 3); (true, 2); (false, 4); (true, 3); (false, 2)]%nat
    [one_turn [] (Some 5) nothing; one_turn [] None (asks 5 [QGet (T "Virtual1")]);
     one_turn [DVirtual v1 1] None (asks 5 [QGet (T "Virtual1")])]
    (reads [answered v1 Up; answered v1 Down]) [T "--is-pressed"; T "Virtual1"; T "--is-pressed"; T "Virtual1"].
Example C56_case : exists L p q m, runs same_path fifth L /\ operation L p q m RYes /\ undisturbed (ctl_of p) = true /\
  call_of same_path q = Some (QGet (T "Virtual1")) /\ In (GEnd q RNo) (ctl_of p).
Proof.
  exists own_log, (fst (op_at own_log 12 18)), (Rq QtIsPressed (T "Virtual1") None), (snd (op_at own_log 12 18)).
  split; [apply logged_runs; vm_compute; reflexivity|].
  split; [apply op_at_is; [vm_compute; reflexivity|vm_compute; reflexivity|lia|vm_compute; reflexivity]|].
  split; [vm_compute; reflexivity|]. split; [reflexivity|]. apply nth_error_In with 4%nat. vm_compute. reflexivity.
Qed.
Definition info_log : log :=
  logged [(true, 5); (false, 3); (true, 4); (false, 3)]%nat
    [one_turn [] (Some 5) nothing; one_turn [] None (asks 5 [QNextKey]);
     one_turn [DNextKeyInfo 30 (T "Keyboard") (T "usb-1")] None nothing]
    (reads [frame (write_amsg (ANextKeyInfo (key_info_text no_names (T "Linux") 30 (T "Keyboard") (T "usb-1") (Win (T "Term") (T "") (T "")))))])
    [T "--next-key-info"].
Example C56_next_case : exists L p q m, runs same_path fifth L /\ operation L p q m RYes /\ undisturbed (ctl_of p) = true /\
  rq_type q = QtNextKey.
Proof.
  exists info_log, (fst (op_at info_log 6 14)), (Rq QtNextKey [] None), (snd (op_at info_log 6 14)).
  split; [apply logged_runs; vm_compute; reflexivity|].
  split; [apply op_at_is; [vm_compute; reflexivity|vm_compute; reflexivity|lia|vm_compute; reflexivity]|].
  split; vm_compute; reflexivity.
Qed.

(** ** C59 The option --timeout *)

(** An operation which directly follows --timeout has this timeout.  Every timeout is the
    argument of an option --timeout or --wait. *)
Theorem C59_partial : forall atoi,
  (forall pre x o post l1 l, interpret atoi None pre = Some l1 ->
     interpret atoi None (pre ++ T "--timeout" :: x :: o :: post) = Some l -> o <> T "--timeout" ->
     (0 <= atoi x <= 24 * 60 * 60 * 1000)%Z ->
     exists q l2, l = l1 ++ q :: l2 /\
       match rq_type q with QtInstance | QtStdout | QtWait => True | _ => rq_timeout q = Some (atoi x) end) /\
  (forall args l q v, interpret_commandline atoi args = Some l -> In q l -> rq_timeout q = Some v ->
     exists a o x b, args = a ++ o :: x :: b /\ (o = T "--timeout" \/ o = T "--wait") /\ v = atoi x).
Proof.
  intro atoi. split.
  - intros pre x o post l1 l H1 H2 H3 H4. apply (timeout_given atoi pre x o post l1 l H1 H2 H3 H4).
  - intros args l q v H HI HV. unfold interpret_commandline in H.
    destruct (interpret atoi None args) as [l'|] eqn:E; [|discriminate H].
    assert (Q : l' = l) by (destruct l'; [discriminate H|injection H as <-; reflexivity]). subst l'.
    destruct (timeout_source atoi (length args) args None l q v (Nat.le_refl _) E HI HV) as [F|F]; [discriminate F|exact F].
Qed.
Print Assumptions C59_partial.

(** Missing: that it is only for the operation which follows.  The second operation has it too,
    and the argument of --wait is another one. *)
Theorem C59_refuted : exists atoi args l1 q l2 q',
  interpret_commandline atoi args = Some (l1 ++ [q; q'] ++ l2) /\
  args = [T "--timeout"; T "50"; T "--is-pressed"; T "Foo"; T "--wait-pressed"; T "Foo"; T "--wait"; T "10";
          T "--wait-pressed"; T "Foo"] /\
  rq_type q = QtIsPressed /\ rq_timeout q = Some 50%Z /\ rq_type q' = QtWaitPressed /\ rq_timeout q' = Some 50%Z /\
  exists q'', In q'' l2 /\ rq_type q'' = QtWaitPressed /\ rq_timeout q'' = Some 10%Z.
Proof.
  exists (digits 0), [T "--timeout"; T "50"; T "--is-pressed"; T "Foo"; T "--wait-pressed"; T "Foo"; T "--wait"; T "10";
          T "--wait-pressed"; T "Foo"], [],
    (Rq QtIsPressed (T "Foo") (Some 50%Z)),
    [Rq QtWait [] (Some 10%Z); Rq QtWaitPressed (T "Foo") (Some 10%Z)], (Rq QtWaitPressed (T "Foo") (Some 50%Z)).
  split; [vm_compute; reflexivity|]. repeat (split; [reflexivity|]).
  exists (Rq QtWaitPressed (T "Foo") (Some 10%Z)). split; [right; left; reflexivity|]. split; reflexivity.
Qed.
Print Assumptions C59_refuted.

Example C59_case :
  interpret (digits 0) None [T "--input"; T "A"; T "B"] = Some [Rq QtInput (T "A B ") None] /\
  interpret (digits 0) None [T "--input"; T "A"; T "B"; T "--timeout"; T "50"; T "--set-config"; T "file"] =
    Some [Rq QtInput (T "A B ") None; Rq QtConfig (T "file") (Some 50%Z)].
Proof. vm_compute. split; reflexivity. Qed.

(** ** C62 Operations time out only when there is a timeout *)

(** When an operation times out, one of its reads yielded nothing or not all of a message. *)
Theorem C62_late : forall absolute at_client L p q m,
  runs absolute at_client L -> operation L p q m RTimeout -> undisturbed (ctl_of p) = true -> exchanges q = true ->
  exists d, In (GRead (rq_timeout q) (Some d)) (ctl_of m) /\ forall b, short b -> d <> frame b.
Proof.
  intros absolute at_client L p q m (se & ty & kn & sy & st & fo & di & na & sp & co & sd & ic & at' & fu & ar & B & SI)
    (tail & EL & NB) U XQ.
  pose proof (L_ok _ _ _ _ _ _ _ _ _ _ _ _ _ _ _ _ _ _ B) as OKL. destruct B as (_ & PR & DEL).
  destruct (main_history co sd ic absolute at' fu ar _ eq_refl) as [[r0 H]|H].
  - apply (operation_late at_client L DEL OKL SI co sd ic absolute r0 _ p q m tail H EL PR NB U XQ).
  - exfalso. apply (H q). destruct PR as [x PR]. rewrite PR. apply in_or_app. left.
    rewrite EL, ctl_app. apply in_or_app. right. left. reflexivity.
Qed.
Print Assumptions C62_late.

(** An operation without a timeout does not time out when reads without a timeout wait for a
    whole message. *)
Theorem C62_partial : forall absolute at_client L p q m r,
  runs absolute at_client L -> operation L p q m r -> undisturbed (ctl_of p) = true -> exchanges q = true ->
  rq_timeout q = None ->
  (forall d, In (GRead None (Some d)) (ctl_of m) -> exists b, short b /\ d = frame b) ->
  r <> RTimeout.
Proof.
  intros absolute at_client L p q m r R OP U XQ NT W ->.
  destruct (C62_late absolute at_client L p q m R OP U XQ) as (d & D1 & D2). rewrite NT in D1.
  destruct (W d D1) as (b & SB & ->). exact (D2 b SB eq_refl).
Qed.
Print Assumptions C62_partial.

(** Missing: reads which yield a part of a message.  A read waits for the first byte only. *)
Definition part_log : log :=
  logged [(true, 5); (false, 3); (true, 2); (false, 2)]%nat
    [one_turn [] (Some 5) nothing; one_turn [] None (asks 5 [QGet (T "Virtual1")])]
    (reads [firstn 4 (answered v1 Up)]) [T "--is-pressed"; T "Virtual1"].
Theorem C62_refuted : exists absolute at_client L p q m,
  runs absolute at_client L /\ operation L p q m RTimeout /\ undisturbed (ctl_of p) = true /\ exchanges q = true /\
  rq_timeout q = None /\ forall d, In (GRead None (Some d)) (ctl_of m) -> d <> [].
Proof.
  exists same_path, fifth, part_log, (fst (op_at part_log 6 11)), (Rq QtIsPressed (T "Virtual1") None), (snd (op_at part_log 6 11)).
  split; [apply logged_runs; vm_compute; reflexivity|].
  split; [apply op_at_is; [vm_compute; reflexivity|vm_compute; reflexivity|lia|vm_compute; reflexivity]|].
  split; [vm_compute; reflexivity|]. split; [reflexivity|]. split; [reflexivity|].
  assert (H : forallb (fun e => match e with GRead None (Some []) => false | _ => true end) (ctl_of (snd (op_at part_log 6 11))) = true)
    by (vm_compute; reflexivity).
  rewrite forallb_forall in H. intros d HI Q. subst d. specialize (H _ HI). discriminate H.
Qed.
Print Assumptions C62_refuted.

Example C62_case : exists L p q m, runs same_path fifth L /\ operation L p q m RYes /\ undisturbed (ctl_of p) = true /\
  exchanges q = true /\ rq_timeout q = None /\
  forall d, In (GRead None (Some d)) (ctl_of m) -> exists b, short b /\ d = frame b.
Proof.
  exists own_log, (fst (op_at own_log 12 18)), (Rq QtIsPressed (T "Virtual1") None), (snd (op_at own_log 12 18)).
  split; [apply logged_runs; vm_compute; reflexivity|].
  split; [apply op_at_is; [vm_compute; reflexivity|vm_compute; reflexivity|lia|vm_compute; reflexivity]|].
  split; [vm_compute; reflexivity|]. split; [reflexivity|]. split; [reflexivity|].
  replace (ctl_of (snd (op_at own_log 12 18))) with [GSend (RGet (T "Virtual1")) true; GRead None (Some (answered v1 Down))]
    by (vm_compute; reflexivity).
  intros d [Q|[Q|[]]]; [discriminate Q|]. injection Q as <-. exists (write_amsg (AVirtual v1 Down)). split; reflexivity.
Qed.

(** ** C63 Every request of keymapperctl is answered, and nothing else is sent *)

(** On every connection, a request is answered before anything else happens, unless it waits
    for a change or for the next key; then the report it waits for is followed by the answer.
    Nothing is owed when the client is done with a message; there are no other answers. *)
Theorem C63_answers : forall search typer key_name system sent focus disk name steps s,
  let x := link_of s (cl_trace (client_main search typer key_name system sent focus disk name steps)) in
  lk_ok x = true /\ lk_owed x = None /\ (lk_answered x <= lk_asked x)%nat.
Proof.
  intros. destruct (main_link search typer key_name system sent focus disk name steps s) as (A & B & _).
  split; [exact A|]. split; [exact B|].
  assert (F := fair_of s _ A). destruct F as [F _]. unfold x. unfold fair in F. lia.
Qed.
Print Assumptions C63_answers.

(** Four requests, one of which waits; one answered later, one for the next key. *)
Example C63_case :
  let x := link_of 5 (cl_trace (go always
    [one_turn [] (Some 5) (asks 5 [QGet (T "Foo"); QNotify (T "Foo"); QNextKey; QSet (T "Bar") 1]);
     one_turn [DNextKeyInfo 30 (T "Keyboard") (T "usb-1")] None nothing])) in
  lk_asked x = 4%nat /\ lk_answered x = 3%nat /\ lk_armed x = first_virtual + 7.
Proof. vm_compute. repeat split. Qed.
