(** Properties C32, C33 and C34: messages between client, server and keymapperctl. *)
From Coq Require Import String Ascii List Arith NArith ZArith Bool Lia.
From Verif Require Import Base Key Text KeyNames Match ParseSeq Stage Config MultiStage Replay
  Serial SerialSpec SerialProofs SerialStream SerialLocal.
Import ListNotations.
Local Open Scope N_scope.

(** ** Deciding whether a configuration fits into a message *)

Definition shortb {A} (l : list A) : bool := N.of_nat (length l) <? 2 ^ 32.
Definition is_intb (z : Z) : bool := ((- 2 ^ 31 <=? z) && (z <? 2 ^ 31))%Z.
Definition fit_eventb (e : event) : bool := (ek e <? 2 ^ 16) && (ev e <? 4096).
Definition fit_seqb (l : sequence) : bool := shortb l && forallb fit_eventb l.
Definition fit_filterb (f : filter) : bool :=
  shortb (f_string f) && Bool.eqb (f_regex f) (is_regex (f_string f)).
Definition fit_contextb (c : cctx) : bool :=
  shortb (cc_inputs c) && forallb (fun i => fit_seqb (in_seq i) && is_intb (in_out i)) (cc_inputs c)
  && shortb (cc_outputs c) && forallb fit_seqb (cc_outputs c)
  && shortb (cc_commands c) && forallb (fun m => fit_seqb (cm_out m) && is_intb (cm_idx m)) (cc_commands c)
  && fit_filterb (cc_dev c) && fit_filterb (cc_devid c) && fit_seqb (cc_mods c).
Definition fit_configb (c : config) : bool :=
  shortb (cfg_grab c) && forallb (fun f => fit_filterb (fst f)) (cfg_grab c)
  && shortb (cfg_contexts c) && forallb fit_contextb (cfg_contexts c)
  && shortb (cfg_directives c) && forallb shortb (cfg_directives c).

Lemma forallb_Forall {A} (f : A -> bool) (P : A -> Prop) l :
  (forall x, f x = true -> P x) -> forallb f l = true -> Forall P l.
Proof.
  intros H. induction l as [|x l IH]; cbn [forallb]; intro E; constructor;
    apply andb_true_iff in E; destruct E; auto.
Qed.
Lemma shortb_ok {A} (l : list A) : shortb l = true -> short l.
Proof. apply N.ltb_lt. Qed.
Lemma is_intb_ok z : is_intb z = true -> is_int z.
Proof. unfold is_intb, is_int. intro H. apply andb_true_iff in H. lia. Qed.
Lemma fit_seqb_ok l : fit_seqb l = true -> fit_seq l.
Proof.
  unfold fit_seqb. intro H. apply andb_true_iff in H. destruct H as [A B].
  split; [apply shortb_ok; exact A|]. revert B. apply forallb_Forall. intros e H.
  apply andb_true_iff in H. destruct H as [C D]. split; apply N.ltb_lt; assumption.
Qed.
Lemma fit_filterb_ok f : fit_filterb f = true -> fit_filter f.
Proof.
  unfold fit_filterb. intro H. apply andb_true_iff in H. destruct H as [A B].
  split; [apply shortb_ok; exact A|]. apply eqb_prop. exact B.
Qed.
Lemma fit_contextb_ok c : fit_contextb c = true -> fit_context c.
Proof.
  unfold fit_contextb. intro H. repeat (apply andb_true_iff in H; destruct H as [H ?]).
  repeat split; try (apply shortb_ok; assumption); try (apply fit_filterb_ok; assumption);
    try (apply fit_seqb_ok; assumption).
  - eapply forallb_Forall; [|eassumption]. intros i E. apply andb_true_iff in E. destruct E.
    split; [apply fit_seqb_ok|apply is_intb_ok]; assumption.
  - eapply forallb_Forall; [|eassumption]. exact fit_seqb_ok.
  - eapply forallb_Forall; [|eassumption]. intros i E. apply andb_true_iff in E. destruct E.
    split; [apply fit_seqb_ok|apply is_intb_ok]; assumption.
Qed.
Lemma fit_configb_ok c : fit_configb c = true -> fit_config c.
Proof.
  unfold fit_configb. intro H. repeat (apply andb_true_iff in H; destruct H as [H ?]).
  repeat split; try (apply shortb_ok; assumption).
  - eapply forallb_Forall; [|eassumption]. intros f. apply fit_filterb_ok.
  - eapply forallb_Forall; [|eassumption]. exact fit_contextb_ok.
  - eapply forallb_Forall; [|eassumption]. intros t. apply shortb_ok.
Qed.

(** ** C32 The server receives exactly the configuration the client sent *)

(** However the bytes of a configuration are cut, the server's handler is called with the
    grab filters, the stages and the directives of the configuration. *)
Theorem C32_configuration : forall c sends sent k n,
  fit_config c -> short (write_smsg (SConfig c)) ->
  send_message sends (write_smsg (SConfig c)) = (Some true, sent, []) ->
  alive k -> data k = sent -> (pauses k < n)%nat ->
  rr_handled (read_many read_smsg n [] k) =
    [CGrabFilters (cfg_grab c); CConfiguration (server_stages (cfg_contexts c));
     CDirectives (cfg_directives c)].
Proof.
  intros c sends sent k n F S E AL DT L.
  destruct (arrives write_smsg read_smsg fit_smsg scalls smsg_decodes [SConfig c] sends (Some true) sent k [] n)
    as (i & I & R).
  - constructor; [split; assumption|constructor].
  - cbn [map send_messages]. rewrite E. rewrite app_nil_r. reflexivity.
  - exact AL.
  - rewrite app_nil_r. exact DT.
  - cbn zeta in R. destruct R as (_ & _ & _ & H & _ & _ & P).
    destruct (P L) as [_ Q]. rewrite (Q eq_refl eq_refl) in H. rewrite H. reflexivity.
Qed.
Print Assumptions C32_configuration.

(** What the received stages are to the runtime: the same contexts the stages of the
    configuration consist of. *)
Fixpoint all_some {A} (l : list (option A)) : option (list A) :=
  match l with
  | [] => Some []
  | Some a :: r => match all_some r with Some x => Some (a :: x) | None => None end
  | None :: _ => None
  end.
Definition unwire_seq (l : list wevent) : option sequence := all_some (map unwire l).
Definition runtime_context (w : wcontext) : option context :=
  match all_some (map (fun x : list wevent * Z => match unwire_seq (fst x) with Some s => Some (Inp s (snd x)) | None => None end) (wc_inputs w)),
        all_some (map unwire_seq (wc_outputs w)),
        all_some (map (fun x : list wevent * Z => match unwire_seq (fst x) with Some s => Some (Cmd s (snd x)) | None => None end) (wc_commands w)),
        unwire_seq (wc_mods w)
  with
  | Some i, Some o, Some m, Some md =>
      Some (Ctx i o m (server_filter (wc_dev w)) (server_filter (wc_devid w)) md (2 ^ 64 - 1)
                (wc_inv w) (wc_fall w))
  | _, _, _, _ => None
  end.

Lemma all_some_map {A B C} (g : A -> B) (f : B -> option C) (h : A -> C) l :
  (forall x, f (g x) = Some (h x)) -> all_some (map f (map g l)) = Some (map h l).
Proof.
  intro H. induction l as [|x l IH]; [reflexivity|]. cbn [map all_some]. rewrite H, IH. reflexivity.
Qed.
Lemma all_some_cons {A} o (a : A) r x :
  o = Some a -> all_some r = Some x -> all_some (o :: r) = Some (a :: x).
Proof. intros E F. subst o. cbn [all_some]. rewrite F. reflexivity. Qed.
Lemma unwire_seq_wire l : unwire_seq (map wire l) = Some l.
Proof.
  unfold unwire_seq. rewrite (all_some_map wire unwire (fun x => x) l unwire_wire), map_id. reflexivity.
Qed.
Lemma runtime_view c : runtime_context (server_view c) = Some (snd (server_context c)).
Proof.
  unfold runtime_context, server_view, server_context.
  cbn [wc_inputs wc_outputs wc_commands wc_mods wc_dev wc_devid wc_inv wc_fall snd].
  rewrite (all_some_map (fun i : input => (map wire (in_seq i), in_out i)) _ (fun i => i)).
  2: { intros [s o]. cbn [fst snd in_seq in_out]. rewrite unwire_seq_wire. reflexivity. }
  rewrite (all_some_map (map wire) unwire_seq (fun i => i)) by apply unwire_seq_wire.
  rewrite (all_some_map (fun i : command => (map wire (cm_out i), cm_idx i)) _ (fun i => i)).
  2: { intros [s o]. cbn [fst snd cm_out cm_idx]. rewrite unwire_seq_wire. reflexivity. }
  rewrite unwire_seq_wire, !map_id. reflexivity.
Qed.

Theorem C32_stages : forall l,
  all_some (map (fun st => all_some (map runtime_context st)) (server_stages l)) =
  Some (split_stages (map server_context l) []).
Proof.
  intro l. unfold server_stages.
  assert (G : forall cur,
    all_some (map (fun st => all_some (map runtime_context st))
      (grouped (map (fun c => (cc_stage c, server_view c)) l) (map server_view cur))) =
    Some (split_stages (map server_context l) (map (fun c => snd (server_context c)) cur))).
  { assert (R : forall st, all_some (map runtime_context (map server_view st)) =
                  Some (map (fun c => snd (server_context c)) st))
      by (intro st; apply all_some_map; apply runtime_view).
    induction l as [|c l IH]; intro cur.
    - destruct cur as [|x cur]; [reflexivity|].
      exact (all_some_cons _ _ [] [] (R (x :: cur)) eq_refl).
    - cbn [map grouped split_stages].
      change (server_context c) with (cc_stage c, snd (server_context c)) at 1.
      cbv iota. destruct (cc_stage c).
      + destruct cur as [|x cur].
        * exact (IH [c]).
        * exact (all_some_cons _ _ _ _ (R (x :: cur)) (IH [c])).
      + specialize (IH (cur ++ [c])). rewrite !map_app in IH. cbn [map] in IH. exact IH. }
  exact (G []).
Qed.
Print Assumptions C32_stages.

(** A configuration with two stages, device filters, grab filters, a command, timeouts and
    directives fits; the bytes arrive in pieces of 7 with a pause after each. *)
Definition serial_config : config :=
  match parse_cfg (T (String.concat (String (ascii_of_N 10) EmptyString)
    ["@grab-device 'Keyboard'"; "@skip-device-id /mouse.*/i"; "@macos-toggle-fn";
     "@allow-unmapped-commands"; "A{200ms} >> B 50ms C"; "Control{K} >> cmd";
     "[device='Foo' modifier='Shift']"; "cmd >> X"; "[stage]"; "B{C} >> $(echo 1)"])%string)
  with POk c => c | _ => Config [] [] [] [] [] [] [] end.
Fixpoint pieces (fuel n : nat) (b : bytes) : list krecv :=
  match fuel, b with
  | S f, _ :: _ => KData (firstn n b) :: KAgain :: KAgain :: pieces f n (skipn n b)
  | _, _ => []
  end.

Example C32_case :
  fit_configb serial_config = true /\
  let b := write_smsg (SConfig serial_config) in
  let k := pieces 200 7 (frame b) in
  send_message [SSent 3; SIntr; SSent 999; SAgain; SSent 100; SSent 999] b = (Some true, frame b, []) /\
  data k = frame b /\ (10 < pauses k < 200)%nat /\ shortb b = true /\
  length (cfg_grab serial_config) = 2%nat /\
  length (server_stages (cfg_contexts serial_config)) = 2%nat /\
  length (cfg_directives serial_config) = 1%nat.
Proof. vm_compute. repeat split; repeat constructor. Qed.

(** ** C33 Messages survive any fragmentation *)

(** For any list of messages, any behaviour of the sender's ::send and any pieces and pauses
    in which the receiver's ::recv delivers the bytes: the handlers of the receiver are
    called for a beginning of the list, in order, nothing else; when all has been sent and
    received it is the whole list ([arrive] in SerialSpec.v). *)
Theorem C33_to_server : arrive write_smsg read_smsg fit_smsg scalls.
Proof. exact (arrives _ _ _ _ smsg_decodes). Qed.
Print Assumptions C33_to_server.

Theorem C33_to_client : arrive write_cmsg read_cmsg fit_cmsg ccalls.
Proof. exact (arrives _ _ _ _ cmsg_decodes). Qed.
Print Assumptions C33_to_client.

Theorem C33_control_requests : arrive write_rmsg read_rmsg fit_rmsg rcalls.
Proof. exact (arrives _ _ _ _ rmsg_decodes). Qed.
Print Assumptions C33_control_requests.

(** keymapperctl waits for one kind of answer at a time. *)
Theorem C33_control_answers :
  arrive (fun x => write_amsg (AVirtual (fst x) (snd x))) read_answer (fun x => is_key (fst x))
         (fun x => [(fst x, state_code (snd x))]) /\
  arrive (fun t => write_amsg (ANextKeyInfo t)) read_key_info short (fun t => [t]).
Proof.
  split; apply arrives; intros; [apply answer_decodes|apply key_info_decodes]; assumption.
Qed.
Print Assumptions C33_control_answers.

(** Four messages whose bytes are cut into pieces of 3 with a pause after each. *)
Definition serial_messages : list smsg :=
  [SActive [0; 2; -1]%Z; SInjectOutput [Ev 30 Down 0; Ev 30 Up 0]; SValidate; SVirtual 61200 Down].
Example C33_case :
  let b := stream (map write_smsg serial_messages) in
  let k := pieces 100 3 b in
  (forall n, (60 <= n)%nat -> rr_handled (read_many read_smsg n [] k) = flat_map scalls serial_messages) /\
  rr_handled (read_many read_smsg 8 [] k) = flat_map scalls (firstn 1 serial_messages).
Proof.
  cbn zeta. split; [|vm_compute; reflexivity]. intros n L.
  assert (F : Forall (fun m => fit_smsg m /\ short (write_smsg m)) serial_messages).
  { assert (B : forall z, is_intb z = true -> is_int z) by exact is_intb_ok.
    unfold serial_messages.
    repeat (apply Forall_cons; [split; [|apply shortb_ok; vm_compute; reflexivity]|]); [| | | |constructor].
    - split; [apply shortb_ok; reflexivity|].
      repeat (apply Forall_cons; [apply B; vm_compute; reflexivity|]). constructor.
    - apply fit_seqb_ok. vm_compute. reflexivity.
    - exact I.
    - cbn. unfold is_key. reflexivity. }
  destruct (C33_to_server serial_messages [SSent 999; SSent 999; SSent 999; SSent 999; SSent 999; SSent 999; SSent 999; SSent 999]
    (Some true) (stream (map write_smsg serial_messages))
    (pieces 100 3 (stream (map write_smsg serial_messages))) [] n F) as (i & I & R).
  - vm_compute. reflexivity.
  - vm_compute. repeat constructor.
  - vm_compute. reflexivity.
  - cbn zeta in R. destruct R as (_ & _ & _ & H & _ & _ & P).
    destruct P as [_ Q].
    + eapply Nat.lt_le_trans; [|exact L]. vm_compute. repeat constructor.
    + rewrite (Q eq_refl eq_refl) in H. rewrite H. vm_compute. reflexivity.
Qed.

(** A sender which closes the connection after its last message may not be heard: bytes
    which were received completely are dropped when the end of the stream is seen in the
    same call. *)
Theorem C33_close_refuted : exists m k,
  fit_smsg m /\ data k = frame (write_smsg m) /\
  rr_ok (read_messages read_smsg [] (k ++ [KClosed])) = Some false /\
  rr_handled (read_messages read_smsg [] (k ++ [KClosed])) = [] /\
  rr_handled (read_messages read_smsg [] (k ++ [KAgain; KAgain; KClosed])) = scalls m.
Proof.
  exists (SVirtual 61200 Down), [KData (frame (write_smsg (SVirtual 61200 Down)))].
  vm_compute. repeat split.
Qed.
Print Assumptions C33_close_refuted.

(** ** C34 Malformed messages are rejected *)

(** Whatever bytes arrive, in whatever pieces, whatever comes between them and however often
    a connection is read: no byte outside of the received ones is read and each call
    returns. *)
Theorem C34_inside : forall n buf k,
  (rr_ub (read_many read_smsg n buf k) = false /\ rr_ok (read_messages read_smsg buf k) <> None) /\
  (rr_ub (read_many read_cmsg n buf k) = false /\ rr_ok (read_messages read_cmsg buf k) <> None) /\
  (rr_ub (read_many read_rmsg n buf k) = false /\ rr_ok (read_messages read_rmsg buf k) <> None) /\
  (rr_ub (read_many read_answer n buf k) = false /\ rr_ok (read_messages read_answer buf k) <> None) /\
  (rr_ub (read_many read_key_info n buf k) = false /\ rr_ok (read_messages read_key_info buf k) <> None).
Proof.
  intros n buf k. repeat apply conj;
    first [apply read_many_inside|apply read_messages_fuel];
    first [apply inside_smsg|apply inside_cmsg|apply inside_rmsg|apply inside_answer|apply inside_key_info].
Qed.
Print Assumptions C34_inside.

(** A message which is longer than its content is always refused. *)
Theorem C34_longer :
  refuses_longer write_smsg read_smsg fit_smsg /\
  refuses_longer write_cmsg read_cmsg fit_cmsg /\
  refuses_longer write_rmsg read_rmsg fit_rmsg.
Proof.
  repeat apply conj; intros m x rest k k' F X S E.
  - exact (longer _ _ _ _ _ _ _ (smsg_decodes m F) X S E).
  - exact (longer _ _ _ _ _ _ _ (cmsg_decodes m F) X S E).
  - exact (longer _ _ _ _ _ _ _ (rmsg_decodes m F) X S E).
Qed.
Print Assumptions C34_longer.

Example C34_longer_case :
  let m := SActive [1]%Z in let x := [ascii_of_N 7] in
  recv_all [] [KData (frame (write_smsg m ++ x)); KAgain] =
    (RecvOk (frame (write_smsg m ++ x) ++ []), []) /\
  rr_ok (read_messages read_smsg [] [KData (frame (write_smsg m ++ x)); KAgain]) = Some false.
Proof. vm_compute. split; reflexivity. Qed.

(** A message which is shorter than its content is refused, unless the reader ran into the
    end of what has been received so far (missing: [C34_truncated_refuted]). *)
Theorem C34_shorter_partial :
  refuses_shorter write_smsg read_smsg fit_smsg /\
  refuses_shorter write_cmsg read_cmsg fit_cmsg /\
  refuses_shorter write_rmsg read_rmsg fit_rmsg.
Proof.
  repeat apply conj; intros m p x rest k k' F W X S E.
  - pose proof (smsg_decodes m F) as D. rewrite W in D.
    exact (shorter _ _ _ _ _ _ _ inside_smsg local_smsg D X S E).
  - pose proof (cmsg_decodes m F) as D. rewrite W in D.
    exact (shorter _ _ _ _ _ _ _ inside_cmsg local_cmsg D X S E).
  - pose proof (rmsg_decodes m F) as D. rewrite W in D.
    exact (shorter _ _ _ _ _ _ _ inside_rmsg local_rmsg D X S E).
Qed.
Print Assumptions C34_shorter_partial.

(** The list of active contexts cut after its type, followed by two other messages. *)
Example C34_shorter_case :
  let p := write_u8 t_active_contexts in
  let rest := stream (map write_smsg [SValidate; SValidate]) in
  write_smsg (SActive []) = p ++ write_u32 0 /\
  recv_all [] [KData (frame p ++ rest); KAgain] = (RecvOk (frame p ++ rest), []) /\
  rr_ok (read_messages read_smsg [] [KData (frame p ++ rest); KAgain]) = Some false /\
  rr_short (read_messages read_smsg [] [KData (frame p ++ rest); KAgain]) = false.
Proof. vm_compute. repeat split; reflexivity. Qed.

(** The bytes which are accepted without a refused read are messages, one after the other,
    and the handlers are called for what they stand for. *)
Theorem C34_only_messages : forall buf k,
  let r := read_messages read_smsg buf k in
  rr_ok r = Some true -> rr_short r = false -> rr_bad r = false ->
  exists got ms,
    recv_all buf k = (RecvOk got, rr_socket r) /\
    Forall (fun m => short (fst m) /\ decodes read_smsg (fst m) (snd m)) ms /\
    rr_handled r = flat_map snd ms /\
    got = stream (map fst ms) ++ rr_buf r.
Proof. intros buf k. exact (accepted read_smsg buf k inside_smsg local_smsg). Qed.
Print Assumptions C34_only_messages.

Example C34_only_messages_case :
  let k := pieces 5 30 (stream (map write_smsg serial_messages)) in
  let r := read_messages read_smsg [] k in
  rr_ok r = Some true /\ rr_short r = false /\ rr_bad r = false /\ length (rr_handled r) = 1%nat.
Proof. vm_compute. repeat split; reflexivity. Qed.

(** The same truncated message at the end of the received bytes is accepted and sets no
    contexts active, so that acceptance depends on the timing of the network. *)
Theorem C34_truncated_refuted : exists p rest,
  (forall m, fit_smsg m -> write_smsg m <> p) /\
  rr_ok (read_messages read_smsg [] [KData (frame p ++ rest); KAgain]) = Some false /\
  rr_ok (read_many read_smsg 2 [] [KData (frame p); KAgain; KAgain; KData rest; KAgain]) = Some true /\
  rr_handled (read_many read_smsg 2 [] [KData (frame p); KAgain; KAgain; KData rest; KAgain]) =
    [CActive []; CValidate].
Proof.
  exists (write_u8 t_active_contexts), (frame (write_smsg SValidate)). split; [|vm_compute; repeat split].
  intros m F E. destruct m; try discriminate E.
Qed.
Print Assumptions C34_truncated_refuted.

(** The handler of a message is called before its size is compared: a refused message has
    already had its effect. *)
Theorem C34_effect_refuted : exists k,
  rr_ok (read_messages read_smsg [] k) = Some false /\
  rr_handled (read_messages read_smsg [] k) = [CVirtual 61200 1].
Proof.
  exists [KData (frame (write_smsg (SVirtual 61200 Down) ++ [ascii_of_N 0])); KAgain].
  vm_compute. split; reflexivity.
Qed.
Print Assumptions C34_effect_refuted.

(** A byte other than 0 and 1 ends up in a bool, which is undefined behaviour. *)
Theorem C34_bool_refuted : exists k,
  rr_ok (read_messages read_smsg [] k) = Some true /\ rr_bad (read_messages read_smsg [] k) = true.
Proof.
  exists [KData (frame (write_u8 t_configuration ++ write_u32 1 ++ write_string [] ++ [ascii_of_N 2; ascii_of_N 0]
                        ++ write_u32 0 ++ write_u32 0)); KAgain].
  vm_compute. split; reflexivity.
Qed.
Print Assumptions C34_bool_refuted.
