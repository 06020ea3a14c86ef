(** C119: devices are grabbed for the configuration of the client which is connected, with
    assumptions and a non-trivial instance beside each theorem. *)
From Coq Require Import String Ascii List Arith NArith ZArith Bool Lia.
From Verif Require Import Base Key Text ParseSeq Match Stage StageProperties MultiStage MultiProperties.
From Verif Require Import Server ServerLoop ServerSpec ServerProofs ServerProperties.
From Verif Require Import Config Client ClientSpec ClientProofs ClientProperties Device Grab GrabSpec GrabProofs GrabRun GrabAlign GrabProperties.
From Verif Require Import Session SessionSpec SessionProofs SessionRun SessionProperties.
Import ListNotations.
Local Open Scope Z_scope.

(** * What the connected client sent *)

Definition not_config (m : umessage) : Prop := match m with UConfig _ _ => False | UOther _ => True end.
(** The last configuration among the messages, which has something in it *)
Definition configured_by (l : list umessage) : Prop :=
  exists earlier fs m later, l = (earlier ++ UConfig fs m :: later)%list /\ m_stages m <> [] /\ Forall not_config later.

(** * Proofs *)

Lemma given_last l : forall fs m, given l = Some (fs, m) ->
  exists earlier later, l = (earlier ++ UConfig fs m :: later)%list /\ Forall not_config later.
Proof.
  induction l as [|x l IH] using rev_ind; intros fs m G; [discriminate G|]. rewrite given_snoc in G. destruct x as [fs' m'|x].
  - cbn in G. injection G as -> ->. exists l, []. split; [reflexivity|constructor].
  - cbn in G. destruct (IH fs m G) as (a & b & -> & Q). exists a, (b ++ [UOther x])%list. split; [now rewrite <- app_assoc|].
    apply Forall_app. split; [exact Q|]. constructor; [exact Logic.I|constructor].
Qed.

(** * The theorems *)

(** Clients come and go and send messages which are well formed, devices come and go.
    While any device is grabbed and the server is not about to exit, the client which is
    connected sent a configuration, and the last one it sent is not empty. *)
Theorem C119_own_partial : forall search held_keys write_ok create_ok keyboard_ok clock send_ok w l,
  proper w -> sessions_orderly search held_keys true write_ok create_ok keyboard_ok clock send_ok l (init_usys true w) -> Forall well_sent l ->
  let u := urun search held_keys true write_ok create_ok keyboard_ok clock send_ok l (init_usys true w) in
  shutdown u = false -> (forall status, us_phase u <> PDone status) ->
  forall dev, is_grabbed (gs_log (ds_grab (us_dev u))) dev = true -> configured_by (us_read u).
Proof.
  intros search hk wo co ko clock send w l P O W u SD ND dev G.
  pose proof (run_sound search hk wo co ko clock send l (init_usys true w) (init_sound search w P) O W) as U. fold u in U.
  destruct U as [_ U]. destruct (us_phase u) as [| | |z] eqn:Ph.
  - exfalso. destruct U as (_ & [F1 F2] & _). pose proof (F2 dev). congruence.
  - exfalso. destruct U as (_ & [F1 F2] & _). pose proof (F2 dev). congruence.
  - destruct U as (F & _ & mice & filters & _ & M). destruct M as [M|(M1 & M2 & M3)]; [destruct (no_exit u SD M)|].
    unfold follows in F. destruct (given (us_read u)) as [[fs m]|] eqn:Gv; [|destruct F as [F|F]; [destruct (no_exit u SD F)|contradiction]].
    destruct F as [F1 [F2|F2]]; [destruct (no_exit u SD F2)|]. destruct (given_last _ _ _ Gv) as (a & b & -> & Q).
    exists a, fs, m, b. split; [reflexivity|]. split; [|exact Q]. intro X. apply M3. rewrite F2. now apply shape_empty.
  - destruct (ND z eq_refl).
Qed.
Print Assumptions C119_own_partial.

(** Two clients one after another: between them nothing is grabbed, nor until the second one
    sent its configuration. *)
Example C119_own_example :
  let w := [a_keyboard 0 0] in let u0 := init_usys true w in
  let l1 := [XAccept (AClient None); XRead [sends_to "A >> B" []; all_active "A >> B"] true None; presses 0 30] in
  let l2 := (l1 ++ [hangs_up; XAccept (AClient None)])%list in
  let l3 := (l2 ++ [XRead [sends_to "A >> C" []; all_active "A >> C"] true None; presses 0 30])%list in
  proper w /\ Forall well_sent l3 /\
  sessions_orderly no_regex (fun _ => released) true (fun _ => fine) (fun _ => fine) fine ms_clock sends l3 u0 /\
  holds (play l1 u0) = [0]%nat /\ out (us_server (play l1 u0)) = "+B"%string /\
  holds (play l2 u0) = [] /\ us_phase (play l2 u0) = PConfig /\ us_read (play l2 u0) = [] /\
  holds (play l3 u0) = [0]%nat /\ out (us_server (play l3 u0)) = "+B -B +C"%string /\ shutdown (play l3 u0) = false.
Proof.
  cbn zeta. split; [apply properb_true; vm_compute; reflexivity|]. split; [apply well_sentb_true; vm_compute; reflexivity|].
  split; [apply sessionsb_true; vm_compute; reflexivity|]. vm_compute. repeat split; reflexivity.
Qed.

(** A client sends a configuration and something which cannot be read at once with it.  It is
    rejected, but its configuration stays: the next client to connect has sent nothing yet
    when the keyboard is grabbed and keys are mapped by what the rejected one wanted. *)
Theorem C119_stale_refuted : exists w l l',
  let u0 := init_usys true w in let u := play (l ++ l') u0 in
  proper w /\
  sessions_orderly no_regex (fun _ => released) true (fun _ => fine) (fun _ => fine) fine ms_clock sends (l ++ l') u0 /\
  us_phase (play l u0) = PAccept /\ holds (play l u0) = [] /\
  l' = [XAccept (AClient None); presses 0 30] /\
  us_phase u = PLoop /\ shutdown u = false /\ us_read u = [] /\ holds u = [0]%nat /\ out (us_server u) = "+B"%string.
Proof.
  exists [a_keyboard 0 0], [XAccept (AClient None); XRead [sends_to "A >> B" []; all_active "A >> B"] false None], [XAccept (AClient None); presses 0 30].
  cbn zeta. split; [apply properb_true; vm_compute; reflexivity|].
  split; [apply sessionsb_true; vm_compute; reflexivity|]. vm_compute. repeat split; reflexivity.
Qed.
Print Assumptions C119_stale_refuted.
