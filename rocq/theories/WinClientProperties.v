(** Property C111 of the Windows client, with its assumptions and non-trivial instances. *)
From Coq Require Import String Ascii List Arith NArith ZArith Bool Lia.
From Verif Require Import Base Key Text KeyNames ParseSeq Stage Config Serial Client ClientSpec ClientProofs
  ClientContexts ClientControl ClientProperties WinCommand WinClient WinClientSpec WinClientProofs.
Import ListNotations.
Local Open Scope N_scope.

Definition wgo (disk : nat -> files) (l : list wstep) : wclient :=
  snd (window_main find_sub no_typer no_names (T "Windows") (fun _ => true) windows disk (T "a") l).
Definition wtrace (disk : nat -> files) (l : list wstep) : trace := cl_trace (wc_state (wgo disk l)).

(** ** Contexts *)

(** All contexts ever sent are the right ones for the configuration the server has got. *)
Theorem C111_contexts_partial : forall search typer key_name system sent focus disk main l,
  (forall n, fs_parse (disk n) [] = None) -> main <> [] -> fs_time (disk 0%nat) main <> (-1)%Z ->
  let c := wc_state (snd (window_main search typer key_name system sent focus disk main l)) in
  switches_work (cl_trace c) -> contexts_fit search (cl_trace c).
Proof.
  intros search typer key_name system sent focus disk main l NN NE TM c SW.
  destruct (wmain_good search typer key_name system sent focus disk main NN l NE TM SW) as [[F _ _ _ _ _] _].
  exact F.
Qed.
Print Assumptions C111_contexts_partial.

(** As long as the client runs and nothing could not be sent, the server has the
    configuration of the client and the right contexts are active. *)
Theorem C111_agree_partial : forall search typer key_name system sent focus disk main l,
  (forall n, fs_parse (disk n) [] = None) -> main <> [] -> fs_time (disk 0%nat) main <> (-1)%Z ->
  let r := window_main search typer key_name system sent focus disk main l in
  let c := wc_state (snd r) in
  switches_work (cl_trace c) -> fst r = true -> cl_broken c = false ->
  exists contexts, held (cl_trace c) = (Some (cl_config c), contexts) /\
    right_contexts search (cl_trace c) (cl_config c) contexts.
Proof.
  intros search typer key_name system sent focus disk main l NN NE TM r c SW RUN BR.
  destruct (wmain_good search typer key_name system sent focus disk main NN l NE TM SW) as [_ A].
  exists (cl_active_contexts c). exact (A RUN BR).
Qed.
Print Assumptions C111_agree_partial.

(** Missing: the menu's Reload goes back to the file of the command line.  When keymapperctl
    has set another file and the first one has an error by now, the client takes its old
    configuration without sending it. *)
Definition failing_reload : list wstep :=
  [WAccept 5; WControl (asks 5 [QConfig (T "b")]); WReload; WContexts false; WContexts false; WContexts false].
Theorem C111_contexts_refuted : exists l, ~ contexts_fit find_sub (wtrace breaks l).
Proof.
  exists failing_reload. intro H.
  assert (Q : exists p q, wtrace breaks failing_reload = p ++ FSent (SActive [0; 2]%Z) :: q /\
                          fst (held p) = Some cfg_b /\ active_of p = true).
  { exists (removelast (wtrace breaks failing_reload)), []. vm_compute. auto. }
  destruct Q as (p & q & E1 & E2 & E3). destruct (H _ _ _ E1) as (g & G & R).
  assert (g = cfg_b) by congruence. subst g. unfold right_contexts in R. rewrite E3 in R.
  destruct R as [_ R]. destruct (proj1 (R 2%Z)) as (_ & x & X & _); [right; left; reflexivity|].
  vm_compute in X. discriminate X.
Qed.
Print Assumptions C111_contexts_refuted.

(** Without the error, and with a lost connection, an update of the file and a toggle *)
Example C111_contexts_case :
  let l := failing_reload ++ [WClose true; WSession; WContexts false; WToggle; WFile true] in
  switches_work (wtrace always l) /\ held (wtrace always l) = (Some cfg_a, []) /\
  List.filter (fun e => match e with FSent (SConfig _) => false | FSent _ | FLoad _ _ | FLost => true | _ => false end)
    (wtrace always l)
  = [FLoad (T "a") true; FSent (SActive [0; 1]%Z); FLoad (T "b") true; FSent (SActive [0]%Z);
     FLoad (T "a") true; FSent (SActive [0; 1]%Z); FSent (SActive [0; 2]%Z); FLost; FSent (SActive [0; 2]%Z);
     FSent SValidate; FSent (SActive [])].
Proof. split; [apply switches_dec|]; vm_compute; auto. Qed.

(** ** Virtual keys *)

(** keymapperctl is told the state the server reported last, over whichever connection. *)
Theorem C111_answers : forall search typer key_name system sent focus disk main l,
  answers_last (cl_trace (wc_state (snd (window_main search typer key_name system sent focus disk main l)))).
Proof.
  intros. apply answers_unlost.
  destruct (wmain_winv search typer key_name system sent focus disk main l) as [[_ _ A _] _]. exact A.
Qed.
Print Assumptions C111_answers.

(** So it is told the state of the running server, as long as the connection was never lost. *)
Theorem C111_answers_partial : forall search typer key_name system sent focus disk main l,
  let t := cl_trace (wc_state (snd (window_main search typer key_name system sent focus disk main l))) in
  ~ In FLost t -> answers_right t.
Proof.
  intros search typer key_name system sent focus disk main l t NL.
  destruct (wmain_winv search typer key_name system sent focus disk main l) as [[_ _ A _] _].
  assert (Q : unlost t = t).
  { clear A. induction t as [|e t IH]; [reflexivity|]. cbn [unlost List.filter].
    destruct e; try (f_equal; apply IH; intro Q; apply NL; right; exact Q). elim NL. left. reflexivity. }
  cbn [strip cl_trace] in A. fold t in A. rewrite Q in A. exact A.
Qed.
Print Assumptions C111_answers_partial.

(** Missing: the table of virtual keys is not reset when the server was restarted.  A key
    which was toggled before is told to be down, though none is in the new server. *)
Definition key_kept : list wstep :=
  [WAccept 5; WRead [DVirtual (first_virtual + 7) 1]; WClose true; WControl (asks 5 [QGet (T "Virtual7")])].
Theorem C111_answers_refuted : exists l, ~ answers_right (wtrace always l).
Proof.
  exists key_kept. intro H.
  assert (Q : exists p q, wtrace always key_kept = p ++ FAnswer 5 (AVirtual (first_virtual + 7) Down) :: q /\
                          reported (first_virtual + 7) p = false).
  { exists (removelast (wtrace always key_kept)), []. vm_compute. auto. }
  destruct Q as (p & q & E1 & E2).
  specialize (H p 5 (first_virtual + 7) Down q E1 eq_refl). rewrite E2 in H.
  discriminate H. intro Q. discriminate Q.
Qed.
Print Assumptions C111_answers_refuted.

Example C111_answers_case :
  List.filter (fun e => match e with FAnswer _ _ => true | _ => false end)
    (wtrace always [WAccept 5; WControl (asks 5 [QGet (T "Foo"); QNotify (T "Virtual7")]);
                    WRead [DVirtual (first_virtual + 7) 1]; WControl (asks 5 [QGet (T "Foo")])])
  = [FAnswer 5 (AVirtual (first_virtual + 7) Up); FAnswer 5 (AVirtual (first_virtual + 7) Down);
     FAnswer 5 (AVirtual (first_virtual + 7) Down)].
Proof. vm_compute. reflexivity. Qed.

(** ** Connections of keymapperctl *)

Theorem C111_instances : forall search typer key_name system sent focus disk main l,
  ids_distinct (kept_connections
    (cl_trace (wc_state (snd (window_main search typer key_name system sent focus disk main l))))).
Proof.
  intros search typer key_name system sent focus disk main l s1 s2 id A B NE NZ.
  destruct (wmain_winv search typer key_name system sent focus disk main l) as [_ [_ C D]].
  apply (D s1 s2 id); [apply C; exact A|apply C; exact B|].
  unfold trivial_id. apply text_eqb_neq in NE. apply text_eqb_neq in NZ. rewrite NE, NZ. reflexivity.
Qed.
Print Assumptions C111_instances.

(** The connections survive a restart of the server: the client has those which were
    accepted and not closed. *)
Theorem C111_connections : forall search typer key_name system sent focus disk main l s id,
  let c := wc_state (snd (window_main search typer key_name system sent focus disk main l)) in
  In (s, id) (kept_connections (cl_trace c)) <->
  exists x, In x (cl_controls c) /\ ct_socket x = s /\ ct_id x = id.
Proof.
  intros search typer key_name system sent focus disk main l s id c.
  destruct (wmain_winv search typer key_name system sent focus disk main l) as [_ [_ C _]].
  fold c in C. unfold kept_connections. cbn [strip cl_trace cl_controls] in C. rewrite C.
  unfold ids. rewrite in_map_iff. split.
  - intros (x & Q & H). injection Q as E1 E2. eauto.
  - intros (x & H & E1 & E2). exists x. subst. auto.
Qed.
Print Assumptions C111_connections.

Example C111_connections_case :
  kept_connections (wtrace always
    [WAccept 5; WControl (asks 5 [QInstance (T "x")]); WClose true; WAccept 6; WAccept 7;
     WControl (asks 6 [QInstance (T "x")])]) = [(6, T "x"); (7, [])].
Proof. vm_compute. reflexivity. Qed.
