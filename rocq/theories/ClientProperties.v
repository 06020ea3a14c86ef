(** Properties C43, C44, C45, C47, C48, C57, C60 and C61 of the client, with their
    assumptions and a non-trivial instance beside each. *)
From Coq Require Import String Ascii List Arith NArith ZArith Bool Lia.
From Verif Require Import Base Key Text KeyNames Match ParseSeq Stage Config MultiStage Replay StageProperties
  Serial Client ClientSpec ClientProofs ClientContexts ClientControl ClientInject.
Import ListNotations.
Local Open Scope N_scope.

(** ** Two files and some windows for the examples *)

Definition cfg_of (l : list string) : config :=
  match parse_cfg (T (lines l)) with POk c => c | _ => no_config end.
Definition cfg_a : config := cfg_of
  ["Foo = Virtual7"; "A >> B"; "X >> $(ls)"; "[class = ""Term""]"; "A >> C"; "[title = ""doc""]"; "A >> D"]%string.
Definition cfg_b : config := cfg_of ["A >> X"]%string.
Definition find_sub (p t : text) : bool := contains p t.
Definition no_typer (_ : text) : list stroke := [].
Definition no_names (_ : key) : option text := None.
(** File "a" can be parsed as long as [ok]. *)
Definition some_files (ok : bool) : files :=
  FS (fun n => match n with [] => 0%Z | _ => 5%Z end)
     (fun n => if text_eqb n (T "a") then (if ok then Some cfg_a else None)
               else if text_eqb n (T "b") then Some cfg_b else None).
Definition windows (n : nat) : option window :=
  match n with
  | O => Some (Win (T "Term") (T "") (T ""))
  | 4%nat => Some (Win (T "") (T "my doc") (T ""))
  | _ => None
  end.
Definition nothing : N -> list rcall * bool := fun _ => ([], true).
Definition asks (s : N) (l : list rcall) : N -> list rcall * bool :=
  fun x => if x =? s then (l, true) else ([], true).
Definition go (disk : nat -> files) : list cstep -> client :=
  client_main find_sub no_typer no_names (T "Linux") (fun _ => true) windows disk (T "a").
Definition one_turn (srv : list ccall) (new : option N) (reads : N -> list rcall * bool) : cstep :=
  CTurn (Turn false (srv, true) new reads).
Definition always (_ : nat) : files := some_files true.
(** File "a" has an error from the third reading on. *)
Definition breaks (n : nat) : files := some_files (Nat.ltb n 2).

(** ** C43 Grab filters *)

Theorem C43_grab : forall search l name id default,
  decides search l name id default (evaluate_grab_filters search l name id default).
Proof. exact grab_decides. Qed.
Print Assumptions C43_grab.

(** grab-device = "Keyboard", skip-device-id = /usb/ and a device both select. *)
Example C43_case :
  let l := [(Filter (T "Keyboard") false false, false); (Filter (T "usb") true true, true)] in
  evaluate_grab_filters find_sub l (T "Keyboard") (T "usb-1") true = false /\
  evaluate_grab_filters find_sub l (T "Keyboard") (T "pci-1") false = true /\
  evaluate_grab_filters find_sub l (T "Mouse") (T "pci-1") false = false.
Proof. vm_compute. auto. Qed.

(** ** C44 The table of virtual keys *)

(** The table is accessed out of range only when the last virtual key was reported or asked
    for. *)
Theorem C44_partial : forall search typer key_name system sent focus disk name l,
  let c := client_main search typer key_name system sent focus disk name l in
  cl_ub c = true -> last_key_used (cl_trace c).
Proof.
  intros. destruct (main_inv search typer key_name system sent focus disk name l) as [[_ _ _ U] _].
  apply U. assumption.
Qed.
Print Assumptions C44_partial.

(** Missing: the last virtual key, for which it is false. *)
Theorem C44_refuted : exists l, cl_ub (go always l) = true.
Proof.
  exists [one_turn [] (Some 5) (asks 5 [QGet (T "Virtual255")])]. vm_compute. reflexivity.
Qed.
Print Assumptions C44_refuted.

Example C44_case : exists l, cl_ub (go always l) = false /\
  In (FAnswer 5 (AVirtual (first_virtual + 254) Down)) (cl_trace (go always l)).
Proof.
  exists [one_turn [DVirtual (first_virtual + 254) 1] (Some 5) (asks 5 [QGet (T "Virtual254")])].
  vm_compute. split; [reflexivity|]. tauto.
Qed.

(** ** C45 One connection per instance id *)

Theorem C45_instances : forall search typer key_name system sent focus disk name l,
  ids_distinct (connections (cl_trace (client_main search typer key_name system sent focus disk name l))).
Proof.
  intros search typer key_name system sent focus disk name l s1 s2 id A B NE NZ.
  destruct (main_inv search typer key_name system sent focus disk name l) as [_ [_ C D]].
  apply (D s1 s2 id); [apply C; exact A|apply C; exact B|].
  unfold trivial_id. apply text_eqb_neq in NE. apply text_eqb_neq in NZ. rewrite NE, NZ. reflexivity.
Qed.
Print Assumptions C45_instances.

(** The connections the client has are those which were accepted and not closed. *)
Theorem C45_connections : forall search typer key_name system sent focus disk name l s id,
  let c := client_main search typer key_name system sent focus disk name l in
  In (s, id) (connections (cl_trace c)) <->
  exists x, In x (cl_controls c) /\ ct_socket x = s /\ ct_id x = id.
Proof.
  intros search typer key_name system sent focus disk name l s id c.
  destruct (main_inv search typer key_name system sent focus disk name l) as [_ [_ C _]].
  fold c in C. rewrite C. unfold ids. rewrite in_map_iff. split.
  - intros (x & E & H). injection E as E1 E2. eauto.
  - intros (x & H & E1 & E2). exists x. subst. auto.
Qed.
Print Assumptions C45_connections.

Example C45_case :
  connections (cl_trace (go always
    [one_turn [] (Some 5) (asks 5 [QInstance (T "me")]); one_turn [] (Some 6) (asks 6 [QInstance (T "0")]);
     one_turn [] (Some 7) (asks 7 [QInstance (T "0")]); one_turn [] (Some 8) (asks 8 [QInstance (T "me")])]))
  = [(6, T "0"); (7, T "0"); (8, T "me")].
Proof. vm_compute. reflexivity. Qed.

(** ** C61 Answers about virtual keys *)

(** Every answer to keymapperctl which names a virtual key but the last one tells the state
    the server reported last over the current connection. *)
Theorem C61_answers : forall search typer key_name system sent focus disk name l,
  answers_right (cl_trace (client_main search typer key_name system sent focus disk name l)).
Proof.
  intros. destruct (main_inv search typer key_name system sent focus disk name l) as [[_ _ A _] _]. exact A.
Qed.
Print Assumptions C61_answers.

Example C61_case :
  List.filter (fun e => match e with FAnswer _ _ => true | _ => false end) (cl_trace (go always
    [one_turn [] (Some 5) (asks 5 [QGet (T "Foo"); QNotify (T "Foo")]);
     one_turn [DVirtual (first_virtual + 7) 1] None (asks 5 [QGet (T "Virtual7")]);
     one_turn [DVirtual (first_virtual + 7) 0] None (asks 5 [QGet (T "Foo"); QGet (T "Nothing")])]))
  = [FAnswer 5 (AVirtual (first_virtual + 7) Up); FAnswer 5 (AVirtual (first_virtual + 7) Down);
     FAnswer 5 (AVirtual (first_virtual + 7) Down); FAnswer 5 (AVirtual (first_virtual + 7) Up);
     FAnswer 5 (AVirtual 0 Not)].
Proof. vm_compute. reflexivity. Qed.

(** ** C47 Context indices refer to the configuration of the server *)

(** While no switch back to another file fails.  The file has a name and was not modified
    one second before the epoch (the time -1 stands for never). *)
Theorem C47_partial : forall search typer key_name system sent focus disk name l,
  (forall n, fs_parse (disk n) [] = None) -> name <> [] -> fs_time (disk 0%nat) name <> (-1)%Z ->
  let c := client_main search typer key_name system sent focus disk name l in
  switches_work (cl_trace c) -> contexts_fit search (cl_trace c).
Proof.
  intros search typer key_name system sent focus disk name l NN NE TM c SW.
  destruct (good_main search typer key_name system sent focus disk NN name l NE TM SW) as [[F _ _ _ _ _] _].
  exact F.
Qed.
Print Assumptions C47_partial.

(** Missing: a switch back to a file which has an error by now.  The client takes its old
    configuration without sending it, and from then on sends indices which do not refer to
    the configuration the server holds. *)
Definition failing_switch : list cstep :=
  [one_turn [] (Some 5) (asks 5 [QConfig (T "b")]); one_turn [] None (asks 5 [QConfig (T "a")]);
   one_turn [] None nothing; one_turn [] None nothing].
Theorem C47_refuted : exists l, ~ contexts_fit find_sub (cl_trace (go breaks l)).
Proof.
  exists failing_switch. intro H.
  assert (E : exists p q, cl_trace (go breaks failing_switch) = p ++ FSent (SActive [0; 2]%Z) :: q /\
                          fst (held p) = Some cfg_b /\ active_of p = true).
  { exists (firstn 14 (cl_trace (go breaks failing_switch))), []. vm_compute. auto. }
  destruct E as (p & q & E1 & E2 & E3). destruct (H _ _ _ E1) as (g & G & R).
  assert (g = cfg_b) by congruence. subst g. unfold right_contexts in R. rewrite E3 in R.
  destruct R as [_ R]. destruct (proj1 (R 2%Z)) as (_ & x & X & _); [right; left; reflexivity|].
  vm_compute in X. discriminate X.
Qed.
Print Assumptions C47_refuted.

(** The same without the error: file "b" and back, another window. *)
Lemma switches_dec t :
  (fix f (p : trace) (t : trace) {struct t} : bool :=
     match t with
     | [] => true
     | e :: r =>
         match e with
         | FLoad name false =>
             match current p with Some n => text_eqb n name | None => false end ||
             negb (existsb (fun e => match e with FLoad n _ => text_eqb n name | _ => false end) p)
         | _ => true
         end && f (p ++ [e]) r
     end) [] t = true -> switches_work t.
Proof.
  set (f := fix f (p : trace) (t : trace) {struct t} : bool := _).
  assert (G : forall t p, f p t = true -> forall a name b, t = a ++ FLoad name false :: b ->
            current (p ++ a) = Some name \/ ~ tried (p ++ a) name).
  { intro t'. induction t' as [|e t' IH]; intros p H a name b E; [destruct a; discriminate E|].
    cbn [f] in H. fold f in H. apply andb_true_iff in H. destruct H as [H1 H2].
    destruct a as [|x a].
    - injection E as -> ->. rewrite app_nil_r. apply orb_true_iff in H1. destruct H1 as [H1|H1].
      + left. destruct (current p); [|discriminate]. apply text_eqb_eq in H1. congruence.
      + right. intros [ok Q]. apply negb_true_iff in H1.
        assert (T : existsb (fun e => match e with FLoad n _ => text_eqb n name | _ => false end) p = true).
        { apply existsb_exists. exists (FLoad name ok). split; [exact Q|]. apply text_eqb_eq. reflexivity. }
        congruence.
    - injection E as -> ->. specialize (IH _ H2 a name b eq_refl).
      rewrite <- app_assoc in IH. exact IH. }
  intros H p name q E. exact (G t [] H p name q E).
Qed.
Example C47_case :
  let c := go always failing_switch in
  switches_work (cl_trace c) /\
  List.filter (fun e => match e with FSent (SActive _) | FLoad _ _ => true | _ => false end) (cl_trace c)
  = [FLoad (T "a") true; FSent (SActive [0; 1]%Z); FLoad (T "b") true; FSent (SActive [0]%Z);
     FLoad (T "a") true; FSent (SActive [0; 2]%Z)].
Proof. split; [apply switches_dec|]; vm_compute; reflexivity. Qed.

(** ** C57 The active contexts are those which accept the focused window *)

(** After every step, as long as nothing could not be sent: the server holds the
    configuration of the client and the active contexts are exactly those which accept the
    window the client saw last, none while it is inactive. *)
Theorem C57_partial : forall search typer key_name system sent focus disk name l,
  (forall n, fs_parse (disk n) [] = None) -> name <> [] -> fs_time (disk 0%nat) name <> (-1)%Z ->
  let c := client_main search typer key_name system sent focus disk name l in
  switches_work (cl_trace c) -> cl_broken c = false ->
  exists contexts, held (cl_trace c) = (Some (cl_config c), contexts) /\
    right_contexts search (cl_trace c) (cl_config c) contexts.
Proof.
  intros search typer key_name system sent focus disk name l NN NE TM c SW BR.
  destruct (good_main search typer key_name system sent focus disk NN name l NE TM SW) as [_ A].
  exists (cl_active_contexts c). exact (A BR).
Qed.
Print Assumptions C57_partial.

(** Missing: the failed switch again. *)
Theorem C57_refuted : exists l, let c := go breaks l in
  cl_broken c = false /\
  ~ exists contexts, held (cl_trace c) = (Some (cl_config c), contexts).
Proof.
  exists failing_switch. split; [vm_compute; reflexivity|]. intros (l & H).
  apply (f_equal (fun h => option_map (fun g => length (cfg_contexts g)) (fst h))) in H.
  vm_compute in H. discriminate H.
Qed.
Print Assumptions C57_refuted.

Example C57_case :
  let c := go always (failing_switch ++ [CToggle; one_turn [] None nothing]) in
  switches_work (cl_trace c) /\ cl_broken c = false /\ active_of (cl_trace c) = false /\
  snd (held (cl_trace c)) = [] /\
  let c := go always (failing_switch ++ [CToggle; one_turn [] None nothing; CToggle]) in
  active_of (cl_trace c) = true /\ snd (held (cl_trace c)) = [0; 2]%Z.
Proof. split; [apply switches_dec|]; vm_compute; auto. Qed.

(** ** C48 Injected sequences release what they press *)

Theorem C48_released : forall typer t l, parse_injected typer t = Some l ->
  forall k, pressed_after k l = false.
Proof.
  intros typer t l H k. unfold parse_injected in H.
  destruct (parse_sequence false get_key_by_name typer None t) as [[s x]| | |]; try discriminate.
  injection H as <-. apply ensure_releases.
Qed.
Print Assumptions C48_released.

(** Nothing but releases of keys which are held is added. *)
Theorem C48_appended : forall l, exists r, ensure_all_keys_up l = l ++ r /\ NoDup (map ek r) /\
  Forall (fun e => e = ev0 (ek e) Up /\ pressed_after (ek e) l = true) r.
Proof. exact ensure_appends. Qed.
Print Assumptions C48_appended.

Example C48_case : exists l,
  parse_injected no_typer (T "A !A B") = Some l /\ existsb (fun e => kstate_eqb (es e) Down) l = true /\
  exists s x, parse_sequence false get_key_by_name no_typer None (T "A !A B") = POk (s, x) /\
              pressed_after 30 s = true.
Proof.
  eexists. split; [vm_compute; reflexivity|]. split; [reflexivity|]. eexists. eexists.
  split; vm_compute; reflexivity.
Qed.

(** ** C60 Injected sequences consist of keys devices have *)

(** The logical keys Shift, Control and Meta are replaced. *)
Theorem C60_partial : forall typer t l e, parse_injected typer t = Some l -> In e l ->
  ek e <> k_Shift /\ ek e <> k_Control /\ ek e <> k_Meta.
Proof.
  intros typer t l e H. unfold parse_injected in H.
  destruct (parse_sequence false get_key_by_name typer None t) as [[s x]| | |]; try discriminate.
  injection H as <-. apply replaced.
Qed.
Print Assumptions C60_partial.

(** Missing: the logical key Alt is not. *)
Theorem C60_refuted : exists t l e, parse_injected no_typer t = Some l /\ In e l /\ ek e = k_Alt.
Proof.
  exists (T "Alt{Tab}"). eexists. eexists. split; [vm_compute; reflexivity|].
  split; [left; reflexivity|reflexivity].
Qed.
Print Assumptions C60_refuted.

Example C60_case : exists l, parse_injected no_typer (T "Shift{A} Meta") = Some l /\
  map ek l = [ShiftLeft; 30; 30; ShiftLeft; MetaLeft; MetaLeft].
Proof. eexists. split; vm_compute; reflexivity. Qed.
