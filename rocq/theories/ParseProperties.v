(** The properties of the parser of key sequences as theorems, with their assumptions
    and a non-trivial instance beside each. *)
From Coq Require Import String Ascii List NArith ZArith Bool.
From Verif Require Import Base Key Text TextSpec TextProofs Match ParseSeq ParseProofs ParseSpec ParseOutput
  ParseInput StageSpec Config Replay.
Import ListNotations.
Local Open Scope N_scope.

Definition in_of (t : string) : pres (sequence * list text) :=
  parse_sequence true get_key_by_name (generic_typer None) None (T t).
Definition out_of (t : string) : pres (sequence * list text) :=
  parse_sequence false get_key_by_name (generic_typer None) (Some action_key) (T t).

(** ** C35 Parsing ends *)

(** Whatever the text, the names of keys and the typed strings are, the parser does
    not run forever. *)
Theorem C35_terminates : forall is_input get_key typer command_key t,
  parse_sequence is_input get_key typer command_key t <> PFuel.
Proof.
  intros i g y c t E. pose proof (sequence_total i g y c t) as H. now rewrite E in H.
Qed.
Print Assumptions C35_terminates.

(** It ends with a sequence or an error.  Missing: texts with a number above 2^31-1,
    which the code reads into an int. *)
Theorem C35_partial : forall is_input get_key typer command_key t, ~ huge_number t ->
  (exists l, parse_sequence is_input get_key typer command_key t = POk l)
  \/ parse_sequence is_input get_key typer command_key t = PErr.
Proof.
  intros i g y c t N. pose proof (sequence_total i g y c t) as H.
  destruct (parse_sequence i g y c t) as [l| | |]; [left; now exists l|now right|now destruct N|destruct H].
Qed.
Print Assumptions C35_partial.

(** The signed integer overflows for `2147483648ms`, and for a key code as long. *)
Theorem C35_refuted : exists t, in_of t = PUB /\ out_of t = PUB.
Proof. exists "A 2147483648ms"%string. vm_compute. now split. Qed.
Print Assumptions C35_refuted.

Example C35_case :
  ~ huge_number (T "Shift{A} 2000ms") /\ (exists l, in_of "Shift{A} 2000ms" = POk l) /\
  in_of "Shift{A" = PErr.
Proof.
  split; [|split; [eexists; vm_compute; reflexivity|vm_compute; reflexivity]].
  apply short_not_huge. reflexivity.
Qed.

(** ** C36 Parsed outputs *)

(** In an accepted output each release comes after a press of the same key, and there
    are no states of inputs. *)
Theorem C36_output : forall get_key typer command_key t l cmds,
  parse_sequence false get_key typer command_key t = POk (l, cmds) ->
  presses_first l /\ Forall output_state l.
Proof.
  intros g y c t l cmds H. split; [exact (output_presses_first g y c t l cmds H)|].
  exact (output_states g y c t l cmds H).
Qed.
Print Assumptions C36_output.

(** The two halves around ^ are pressed and released on their own.  Missing: texts
    with both `!` and `^`. *)
Theorem C36_halves_partial : forall get_key typer command_key t l cmds,
  ~ (In "!"%char t /\ In "^"%char t) ->
  parse_sequence false get_key typer command_key t = POk (l, cmds) -> balanced [] l.
Proof. exact output_balanced. Qed.
Print Assumptions C36_halves_partial.

(** `A !B ^ C D` presses A at once and releases it only at the end of what follows the
    release of the input. *)
Theorem C36_halves_refuted : exists t l cmds, out_of t = POk (l, cmds) /\ ~ balanced [] l.
Proof.
  exists "A !B ^ C D"%string. eexists. eexists. split; [vm_compute; reflexivity|].
  cbn. intuition discriminate.
Qed.
Print Assumptions C36_halves_refuted.

Example C36_case : exists l cmds,
  out_of "A{B 100ms C} $(ls (x)) 'ab' ^ D" = POk (l, cmds) /\ length l = 16%nat /\
  cmds = [T "ls (x)"] /\ ~ In "!"%char (T "A{B 100ms C} $(ls (x)) 'ab' ^ D").
Proof.
  eexists. eexists. split; [vm_compute; reflexivity|]. repeat split.
  cbn. intuition discriminate.
Qed.

(** ** C37 Parsed inputs *)

(** An accepted input has a press, only states of inputs, and the marker `?` only in
    front.  Missing: `?` directly before ContextActive. *)
Theorem C37_partial : forall get_key typer command_key t l cmds,
  parse_sequence true get_key typer command_key t = POk (l, cmds) ->
  usable_input l \/ (l = [ev0 k_none NoMightMatch] /\ In "?"%char t).
Proof. exact input_usable. Qed.
Print Assumptions C37_partial.

(** `? ContextActive` is accepted, but all that is left of it is the marker. *)
Theorem C37_refuted : exists t l cmds, in_of t = POk (l, cmds) /\ ~ usable_input l.
Proof.
  exists "? ContextActive"%string. eexists. eexists. split; [vm_compute; reflexivity|].
  intros [m [r [E [[->| ->] [F [e [He [Hd _]]]]]]]].
  - cbn in E. subst r. destruct He as [<-|[]]. discriminate.
  - injection E as <-. destruct He.
Qed.
Print Assumptions C37_refuted.

Example C37_case : exists l cmds,
  in_of "? (A B){ !200ms C } !A" = POk (l, cmds) /\ length l = 10%nat /\ usable_input l.
Proof.
  eexists. eexists. split; [vm_compute; reflexivity|]. split; [reflexivity|].
  exists [ev0 k_none NoMightMatch]. eexists. split; [reflexivity|].
  split; [now right|]. split.
  - unfold input_state. repeat (apply Forall_cons; [cbn; tauto|]). apply Forall_nil.
  - exists (ev0 30 Down). split; [cbn; tauto|]. cbn. split; [reflexivity|discriminate].
Qed.
