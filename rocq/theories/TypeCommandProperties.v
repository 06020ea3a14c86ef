(** C120: keymapperctl --type on Windows runs only what is meant as a command, with
    assumptions and a non-trivial instance beside each theorem. *)
From Coq Require Import String Ascii List Arith NArith Bool Lia.
From Verif Require Import Base WinCommand TypeCommand WinCommandProperties.
Import ListNotations.
Local Open Scope N_scope.

(** * What is a command *)

(** How deep the parentheses are after a text, None when one is closed which is not open *)
Fixpoint depth_after (d : nat) (l : wide) : option nat :=
  match l with
  | [] => Some d
  | c :: l => if c =? 40 then depth_after (S d) l
              else if c =? 41 then match d with O => None | S d => depth_after d l end
              else depth_after d l
  end.
(** The text is one command: what opens with the dollar sign is closed by the last character *)
Definition one_command (s c : wide) : Prop := s = w "$(" ++ c ++ w ")" /\ depth_after 0 c = Some 0%nat.
(** The text begins and ends like a command *)
Definition looks_like_command (s c : wide) : Prop := s = w "$(" ++ c ++ w ")".

(** A process writes [out], of which the reads return one part after the other until the pipe
    is closed *)
Definition delivers (reads : list pipe_read) (out : list N) : Prop :=
  exists parts error, reads = parts ++ [error] /\ pr_ok error = false /\ pr_more error = false /\
    Forall (fun r => pr_ok r = true \/ pr_more r = true) parts /\ out = concat (map pr_bytes parts).

(** * Proofs *)

Lemma find_open s : w_find dollar_open s = Some 0%nat <-> exists r, s = w "$(" ++ r.
Proof.
  change (w "$(") with dollar_open. unfold dollar_open. destruct s as [|a [|b s]]; cbn [w_find w_starts].
  - split; [discriminate|]. intros (r & H). discriminate H.
  - rewrite andb_false_r. cbn. split; [discriminate|]. intros (r & H). discriminate H.
  - rewrite andb_true_r. split.
    + intro H. destruct ((36 =? a) && (40 =? b)) eqn:Q.
      * apply andb_true_iff in Q. destruct Q as [Qa Qb]. apply N.eqb_eq in Qa, Qb. subst. now exists s.
      * match type of H with option_map _ ?x = _ => destruct x; discriminate H end.
    + intros (r & H). injection H as -> -> ->. reflexivity.
Qed.
Lemma back_close s : w_back s = Some 41 <-> exists r, s = r ++ w ")".
Proof.
  change (w ")") with [41]. unfold w_back. split.
  - intro H. destruct (rev s) as [|c l] eqn:Q; [discriminate H|]. injection H as ->. exists (rev l).
    rewrite <- (rev_involutive s), Q. reflexivity.
  - intros (r & ->). rewrite rev_app_distr. reflexivity.
Qed.
Lemma looks_like_ends s : (exists r, s = w "$(" ++ r) -> (exists r, s = r ++ w ")") -> exists c, looks_like_command s c.
Proof.
  intros (r & ->) (r' & H). change (w "$(") with [36; 40] in *. change (w ")") with [41] in *.
  destruct (exists_last (l := r)) as (c & x & ->).
  - intros ->. change ([36; 40] ++ []) with ([36] ++ [40]) in H. apply app_inj_tail in H. destruct H as [_ H]. discriminate H.
  - rewrite app_assoc in H. apply app_inj_tail in H. destruct H as [_ ->]. exists c. reflexivity.
Qed.

Lemma expand_looks create to_wide s c : looks_like_command s c ->
  expand_command create to_wide s = Some (Some (w "CMD /C " ++ c), get_process_output create to_wide (w "CMD /C " ++ c)).
Proof.
  unfold looks_like_command. intro H. unfold expand_command.
  assert (F : w_find dollar_open s = Some 0%nat) by (apply find_open; eexists; exact H). rewrite F.
  assert (B : w_back s = Some 41) by (apply back_close; exists (w "$(" ++ c); rewrite <- app_assoc; exact H). rewrite B.
  change (negb (41 =? close_paren)) with false. cbn iota.
  assert (L : List.length s = (3 + List.length c)%nat) by (rewrite H, !app_length; cbn; lia).
  unfold size_minus, w_substr. rewrite L.
  replace (3 + List.length c <? 3)%nat with false by (symmetry; apply Nat.ltb_ge; lia).
  replace (3 + List.length c <? 2)%nat with false by (symmetry; apply Nat.ltb_ge; lia).
  replace (3 + List.length c - 3)%nat with (List.length c) by lia. rewrite H. change (skipn 2 (w "$(" ++ c ++ w ")")) with (c ++ w ")").
  rewrite firstn_app, Nat.sub_diag, firstn_all, firstn_O, app_nil_r. reflexivity.
Qed.

(** * The theorems *)

(** Every argument is either typed as it is and nothing is run, or it begins and ends like a
    command and what is between is run; nothing undefined happens, whatever the argument. *)
Theorem C120_text_partial : forall create to_wide s,
  (~ (exists c, looks_like_command s c) -> expand_command create to_wide s = Some (None, s)) /\
  (expand_command create to_wide s <> None) /\
  (forall line text, expand_command create to_wide s = Some (Some line, text) ->
    exists c, looks_like_command s c /\ line = w "CMD /C " ++ c).
Proof.
  intros create to_wide s.
  assert (A : (exists c, looks_like_command s c) \/ expand_command create to_wide s = Some (None, s)).
  { unfold expand_command. destruct (w_find dollar_open s) as [[|n]|] eqn:F; [|right; reflexivity..].
    apply find_open in F. destruct (w_back s) as [x|] eqn:B.
    - destruct (x =? close_paren) eqn:Q; [|right; reflexivity]. apply N.eqb_eq in Q. subst x. apply back_close in B.
      left. now apply looks_like_ends.
    - exfalso. destruct F as (r & ->). unfold w_back in B. rewrite rev_app_distr in B. destruct (rev r); discriminate B. }
  destruct A as [(c & A)|A].
  - split; [intro H; exfalso; apply H; now exists c|]. rewrite (expand_looks _ _ _ _ A). split; [discriminate|].
    intros line text H. injection H as <- <-. now exists c.
  - rewrite A. split; [reflexivity|]. split; [discriminate|]. intros line text H. discriminate H.
Qed.
Print Assumptions C120_text_partial.

(** A command is run by the terminal and everything it puts out is typed, however it arrives. *)
Theorem C120_command : forall create to_wide s c reads bytes,
  one_command s c -> create (w "CMD /C " ++ c) = Some reads -> delivers reads bytes ->
  expand_command create to_wide s = Some (Some (w "CMD /C " ++ c), to_wide bytes).
Proof.
  intros create to_wide s c reads bytes [H _] C (parts & e & -> & E1 & E2 & P & ->).
  rewrite (expand_looks create to_wide s c H). unfold get_process_output. rewrite C. do 3 f_equal. clear C.
  induction P as [|r parts Hr P IH]; cbn [app read_pipe map concat].
  - now rewrite E1, E2.
  - replace (negb (pr_ok r) && negb (pr_more r)) with false by (destruct Hr as [-> | ->]; destruct (pr_ok r); reflexivity). now rewrite IH.
Qed.
Print Assumptions C120_command.

Example C120_example :
  let create l := if list_eq_dec N.eq_dec l (w "CMD /C echo (hi)") then Some [PR true false (w "(h"); PR false true (w "i)"); PR true false (w ""); PR false false (w "")] else None in
  one_command (w "$(echo (hi))") (w "echo (hi)") /\
  delivers [PR true false (w "(h"); PR false true (w "i)"); PR true false (w ""); PR false false (w "")] (w "(hi)") /\
  expand_command create (fun l => l) (w "$(echo (hi))") = Some (Some (w "CMD /C echo (hi)"), w "(hi)") /\
  expand_command create (fun l => l) (w "costs $(5)") = Some (None, w "costs $(5)") /\
  expand_command create (fun l => l) (w "$(") = Some (None, w "$(") /\
  expand_command create (fun l => l) (w "") = Some (None, w "") /\
  ~ (exists c, looks_like_command (w "costs $(5)") c).
Proof.
  cbn zeta. split; [split; reflexivity|]. split.
  { exists [PR true false (w "(h"); PR false true (w "i)"); PR true false (w "")], (PR false false (w "")).
    split; [reflexivity|]. split; [reflexivity|]. split; [reflexivity|]. split; [|reflexivity].
    constructor; [now left|]. constructor; [now right|]. constructor; [now left|constructor]. }
  repeat (split; [vm_compute; reflexivity|]). intros (c & H). discriminate H.
Qed.

(** Only the first two characters and the last one are looked at: a text with a command in
    front and something in parentheses at the end is no command, but a part of it is run. *)
Theorem C120_command_refuted : exists s,
  ~ (exists c, one_command s c) /\
  forall create to_wide, exists text, expand_command create to_wide s = Some (Some (w "CMD /C time /t) (local"), text).
Proof.
  exists (w "$(time /t) (local)"). split.
  - intros (c & H & D). change (w "$(") with [36; 40] in H. change (w ")") with [41] in H.
    change (w "$(time /t) (local)") with ([36; 40] ++ w "time /t) (local" ++ [41]) in H.
    apply app_inv_head in H. apply app_inv_tail in H. subst c. vm_compute in D. discriminate D.
  - intros create to_wide. eexists. apply expand_looks. reflexivity.
Qed.
Print Assumptions C120_command_refuted.
