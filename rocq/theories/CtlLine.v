(** The command line of keymapperctl. *)
From Coq Require Import String Ascii List Arith NArith ZArith Bool Lia.
From Verif Require Import Base Key Text Serial ClientProofs Ctl.
Import ListNotations.
Local Open Scope N_scope.

Section Line.
Variable atoi : text -> Z.
Notation interpret := (interpret atoi).

(** The words up to the next option. *)
Fixpoint words (l : list text) : list text :=
  match l with [] => [] | x :: r => if begins_with_dash x then [] else x :: words r end.
Fixpoint after_words (l : list text) : list text :=
  match l with [] => [] | x :: r => if begins_with_dash x then l else after_words r end.
Definition joined (l : list text) : text := flat_map (fun x => x ++ T " ") l.

Definition in_range (n : Z) : option Z := if (n <? 0)%Z || (max_timeout <? n)%Z then None else Some n.
Definition sequence_type (a : text) : option rtype :=
  if text_eqb a (T "--input") then Some QtInput else if text_eqb a (T "--output") then Some QtOutput else None.
(** Options with one argument, other than --timeout and --wait, and whether they have the timeout. *)
Definition with_argument (a : text) : option (rtype * bool) :=
  if text_eqb a (T "--instance") then Some (QtInstance, false)
  else if text_eqb a (T "--set-config") then Some (QtConfig, true)
  else if text_eqb a (T "--type") then Some (QtType, true)
  else option_map (fun ty => (ty, true)) (key_request a).
Definition without_argument (a : text) (t : option Z) : option request :=
  if text_eqb a (T "--stdout") then Some (Rq QtStdout [] None)
  else if text_eqb a (T "--restart") then Some (Rq QtRestart [] t)
  else if text_eqb a (T "--next-key-info") then Some (Rq QtNextKey [] t)
  else None.

Lemma after_length l : (length (after_words l) <= length l)%nat.
Proof. induction l as [|x l IH]; cbn [after_words]; [lia|]. destruct (begins_with_dash x); cbn [length] in *; lia. Qed.

Lemma sequence_go t ty : forall r acc,
  (fix go (acc : text) (l : list text) {struct l} : option (list request) :=
     match l with
     | [] => Some [Rq ty acc t]
     | x :: l' => if begins_with_dash x then option_map (cons (Rq ty acc t)) (interpret t l) else go (acc ++ x ++ T " ") l'
     end) acc r =
  option_map (cons (Rq ty (acc ++ joined (words r)) t)) (interpret t (after_words r)).
Proof.
  induction r as [|x r IH]; intro acc.
  - cbn. rewrite app_nil_r. reflexivity.
  - cbn [words after_words]. destruct (begins_with_dash x).
    + cbn [joined flat_map]. rewrite app_nil_r. reflexivity.
    + rewrite IH. cbn [joined flat_map]. rewrite <- !app_assoc. reflexivity.
Qed.

(** One option at a time. *)
Lemma interpret_step t a r : interpret t (a :: r) =
  if text_eqb a (T "--timeout") then match r with [] => None | x :: r' => interpret (in_range (atoi x)) r' end
  else if text_eqb a (T "--wait") then
    match r with [] => None | x :: r' => option_map (cons (Rq QtWait [] (Some (atoi x)))) (interpret (Some (atoi x)) r') end
  else match with_argument a with
       | Some (ty, b) =>
           match r with [] => None | x :: r' => option_map (cons (Rq ty x (if b then t else None))) (interpret t r') end
       | None =>
           match sequence_type a with
           | Some ty => option_map (cons (Rq ty (joined (words r)) t)) (interpret t (after_words r))
           | None => match without_argument a t with
                     | Some q => option_map (cons q) (interpret t r)
                     | None => None
                     end
           end
       end.
Proof.
  cbn [Ctl.interpret]. cbv zeta. rewrite !sequence_go. cbn [app].
  unfold with_argument, sequence_type, without_argument.
  destruct (text_eqb a (T "--timeout")) eqn:E1; [reflexivity|].
  destruct (text_eqb a (T "--instance")) eqn:E2; [apply text_eqb_eq in E2; subst a; reflexivity|].
  destruct (text_eqb a (T "--wait")) eqn:E3; [reflexivity|].
  destruct (text_eqb a (T "--stdout")) eqn:E4; [apply text_eqb_eq in E4; subst a; reflexivity|].
  destruct (text_eqb a (T "--restart")) eqn:E5; [apply text_eqb_eq in E5; subst a; reflexivity|].
  destruct (text_eqb a (T "--next-key-info")) eqn:E6; [apply text_eqb_eq in E6; subst a; reflexivity|].
  destruct (text_eqb a (T "--set-config")) eqn:E7; [reflexivity|].
  destruct (text_eqb a (T "--input")) eqn:E8; [apply text_eqb_eq in E8; subst a; reflexivity|].
  destruct (text_eqb a (T "--output")) eqn:E9; [apply text_eqb_eq in E9; subst a; reflexivity|].
  destruct (text_eqb a (T "--type")) eqn:E10; [reflexivity|].
  destruct (key_request a) as [ty|] eqn:E11; reflexivity.
Qed.

Lemma cons_some (q : request) (o : option (list request)) l : option_map (cons q) o = Some l ->
  exists l', l = q :: l' /\ o = Some l'.
Proof. destruct o as [l'|]; intro H; [|discriminate H]. injection H as <-. eauto. Qed.

(** Where a timeout comes from. *)
Lemma timeout_source n : forall args t l q v, (length args <= n)%nat -> interpret t args = Some l ->
  In q l -> rq_timeout q = Some v -> t = Some v \/
  exists a o x b, args = a ++ o :: x :: b /\ (o = T "--timeout" \/ o = T "--wait") /\ v = atoi x.
Proof.
  induction n as [|n IH]; intros args t l q v LE H HI HV.
  { destruct args; [|cbn in LE; lia]. injection H as <-. destruct HI. }
  destruct args as [|a r]; [injection H as <-; destruct HI|]. cbn [length] in LE. rewrite interpret_step in H.
  assert (FIRST : forall r0 t0 l0, (exists p, r = p ++ r0) -> (length r0 <= length r)%nat -> interpret t0 r0 = Some l0 -> In q l0 ->
            t0 = Some v \/ exists a0 o x b, a :: r = a0 ++ o :: x :: b /\ (o = T "--timeout" \/ o = T "--wait") /\ v = atoi x).
  { intros r0 t0 l0 [p ->] LE0 H0 I0. destruct (IH r0 t0 l0 q v ltac:(lia) H0 I0 HV) as [Q|(a0 & o & x & b & -> & O & V)]; [left; exact Q|].
    right. exists (a :: p ++ a0), o, x, b. cbn [app]. rewrite <- app_assoc. auto. }
  destruct (text_eqb a (T "--timeout")) eqn:E1.
  { apply text_eqb_eq in E1. subst a. destruct r as [|x r']; [discriminate H|].
    destruct (FIRST r' _ l (ex_intro _ [x] eq_refl) ltac:(cbn; lia) H HI) as [Q|Q]; [|right; exact Q].
    right. exists [], (T "--timeout"), x, r'. split; [reflexivity|]. split; [left; reflexivity|].
    unfold in_range in Q. destruct (_ || _); [discriminate Q|congruence]. }
  destruct (text_eqb a (T "--wait")) eqn:E3.
  { apply text_eqb_eq in E3. subst a. destruct r as [|x r']; [discriminate H|]. apply cons_some in H. destruct H as (l' & -> & H).
    assert (W : exists a0 o y b, T "--wait" :: x :: r' = a0 ++ o :: y :: b /\ (o = T "--timeout" \/ o = T "--wait") /\ atoi x = atoi y).
    { exists [], (T "--wait"), x, r'. auto. }
    destruct HI as [<-|HI]; [injection HV as <-; right; exact W|].
    destruct (FIRST r' _ l' (ex_intro _ [x] eq_refl) ltac:(cbn; lia) H HI) as [Q|Q]; [|right; exact Q].
    injection Q as <-. right. exact W. }
  destruct (with_argument a) as [[ty b]|].
  { destruct r as [|x r']; [discriminate H|]. apply cons_some in H. destruct H as (l' & -> & H).
    destruct HI as [<-|HI]; [cbn [rq_timeout] in HV; destruct b; [left; exact HV|discriminate HV]|].
    apply (FIRST r' t l' (ex_intro _ [x] eq_refl) ltac:(cbn; lia) H HI). }
  destruct (sequence_type a) as [ty|].
  { apply cons_some in H. destruct H as (l' & -> & H). destruct HI as [<-|HI]; [left; exact HV|].
    apply (FIRST (after_words r) t l'); [|apply after_length|exact H|exact HI].
    clear. induction r as [|x r IH]; cbn [after_words]; [exists []; reflexivity|]. destruct (begins_with_dash x); [exists []; reflexivity|].
    destruct IH as [p Q]. exists (x :: p). cbn. f_equal. exact Q. }
  destruct (without_argument a t) as [q'|] eqn:WA; [|discriminate H].
  apply cons_some in H. destruct H as (l' & -> & H). destruct HI as [<-|HI].
  - unfold without_argument in WA. repeat match type of WA with context [if ?b then _ else _] => destruct b end;
      try discriminate WA; injection WA as <-; [discriminate HV|left; exact HV|left; exact HV].
  - apply (FIRST r t l' (ex_intro _ [] eq_refl) ltac:(lia) H HI).
Qed.

(** Options following a complete command line. *)
Definition option_next (l : list text) : Prop := match l with [] => True | x :: _ => begins_with_dash x = true end.
Lemma words_app r suf : option_next suf -> words (r ++ suf) = words r /\ after_words (r ++ suf) = after_words r ++ suf.
Proof.
  intro O. induction r as [|x r [I1 I2]]; cbn [words after_words app].
  - destruct suf as [|x suf]; [split; reflexivity|]. cbn [words after_words]. cbn in O. rewrite O. split; reflexivity.
  - destruct (begins_with_dash x); [split; reflexivity|]. rewrite I1. split; [reflexivity|exact I2].
Qed.
Lemma interpret_app n : forall pre t l1, (length pre <= n)%nat -> interpret t pre = Some l1 ->
  exists t', forall suf, option_next suf -> interpret t (pre ++ suf) = option_map (app l1) (interpret t' suf).
Proof.
  induction n as [|n IH]; intros pre t l1 LE H.
  { destruct pre; [|cbn in LE; lia]. injection H as <-. exists t. intros suf _. cbn [app].
    destruct (interpret t suf); reflexivity. }
  destruct pre as [|a r].
  { injection H as <-. exists t. intros suf _. cbn [app]. destruct (interpret t suf); reflexivity. }
  cbn [length] in LE. rewrite interpret_step in H. cbn [app].
  assert (MORE : forall (q : request) l' o, option_map (cons q) (option_map (app l') o) = option_map (app (q :: l')) o)
    by (intros q l' [x|]; reflexivity).
  destruct (text_eqb a (T "--timeout")) eqn:E1.
  { destruct r as [|x r']; [discriminate H|]. destruct (IH r' _ l1 ltac:(cbn in LE; lia) H) as [t' Q]. exists t'. intros suf O.
    rewrite interpret_step, E1. cbn [app]. exact (Q suf O). }
  destruct (text_eqb a (T "--wait")) eqn:E3.
  { destruct r as [|x r']; [discriminate H|]. apply cons_some in H. destruct H as (l' & -> & H).
    destruct (IH r' _ l' ltac:(cbn in LE; lia) H) as [t' Q]. exists t'. intros suf O.
    rewrite interpret_step, E1, E3. cbn [app]. rewrite (Q suf O). apply MORE. }
  destruct (with_argument a) as [[ty b]|] eqn:E4.
  { destruct r as [|x r']; [discriminate H|]. apply cons_some in H. destruct H as (l' & -> & H).
    destruct (IH r' _ l' ltac:(cbn in LE; lia) H) as [t' Q]. exists t'. intros suf O.
    rewrite interpret_step, E1, E3, E4. cbn [app]. rewrite (Q suf O). apply MORE. }
  destruct (sequence_type a) as [ty|] eqn:E5.
  { apply cons_some in H. destruct H as (l' & -> & H).
    destruct (IH (after_words r) _ l' ltac:(pose proof (after_length r); lia) H) as [t' Q]. exists t'. intros suf O.
    rewrite interpret_step, E1, E3, E4, E5. destruct (words_app r suf O) as [-> ->]. rewrite (Q suf O). apply MORE. }
  destruct (without_argument a t) as [q|] eqn:E6; [|discriminate H].
  apply cons_some in H. destruct H as (l' & -> & H).
  destruct (IH r _ l' ltac:(lia) H) as [t' Q]. exists t'. intros suf O.
  rewrite interpret_step, E1, E3, E4, E5, E6. rewrite (Q suf O). apply MORE.
Qed.

(** The operation an option --timeout stands before. *)
Lemma timeout_given pre x o post l1 l : interpret None pre = Some l1 ->
  interpret None (pre ++ T "--timeout" :: x :: o :: post) = Some l -> o <> T "--timeout" ->
  (0 <= atoi x <= max_timeout)%Z ->
  exists q l2, l = l1 ++ q :: l2 /\
    (match rq_type q with QtInstance | QtStdout | QtWait => True | _ => rq_timeout q = Some (atoi x) end).
Proof.
  intros H1 H NO RA. destruct (interpret_app (length pre) pre None l1 (Nat.le_refl _) H1) as [t' Q].
  rewrite Q in H by reflexivity. clear Q. rewrite interpret_step in H.
  replace (text_eqb (T "--timeout") (T "--timeout")) with true in H by reflexivity. cbn iota in H.
  assert (IR : in_range (atoi x) = Some (atoi x)).
  { unfold in_range. destruct (Z.ltb_spec (atoi x) 0); [lia|]. destruct (Z.ltb_spec max_timeout (atoi x)); [lia|reflexivity]. }
  rewrite IR, interpret_step in H.
  destruct (text_eqb o (T "--timeout")) eqn:E1; [apply text_eqb_eq in E1; contradiction|].
  assert (FIN : forall q w, option_map (app l1) (option_map (cons q) w) = Some l ->
     match rq_type q with QtInstance | QtStdout | QtWait => True | _ => rq_timeout q = Some (atoi x) end ->
     exists q l2, l = l1 ++ q :: l2 /\
       match rq_type q with QtInstance | QtStdout | QtWait => True | _ => rq_timeout q = Some (atoi x) end).
  { intros q [w|] F1 F2; [|discriminate F1]. injection F1 as <-. eauto. }
  destruct (text_eqb o (T "--wait")) eqn:E3.
  { destruct post as [|y post]; [discriminate H|]. eapply FIN; [exact H|exact I]. }
  destruct (with_argument o) as [[ty b]|] eqn:E4.
  { destruct post as [|y post]; [discriminate H|]. eapply FIN; [exact H|]. cbn [rq_type rq_timeout].
    destruct b; [destruct ty; reflexivity || exact I|]. unfold with_argument in E4.
    repeat match type of E4 with context [if ?b then _ else _] => destruct b end; try discriminate E4; [injection E4 as <-; exact I|].
    destruct (key_request o); discriminate E4. }
  destruct (sequence_type o) as [ty|] eqn:E5.
  { eapply FIN; [exact H|]. cbn. destruct ty; reflexivity || exact I. }
  destruct (without_argument o (Some (atoi x))) as [q|] eqn:E6; [|discriminate H].
  eapply FIN; [exact H|]. unfold without_argument in E6.
  repeat match type of E6 with context [if ?b then _ else _] => destruct b end; try discriminate E6; injection E6 as <-; cbn; auto.
Qed.
End Line.
