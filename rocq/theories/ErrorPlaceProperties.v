(** C122: the place of an error in the configuration, with assumptions and a non-trivial
    instance beside each theorem. *)
From Coq Require Import String List Ascii Arith NArith Bool Lia.
From Verif Require Import Base Text Config MacroSpec MacroCalls ClientMain ErrorPlace.
Import ListNotations.
Local Open Scope nat_scope.
Local Open Scope list_scope.

(** * What is expected *)

Section Spec.
Variable St : Type.
Variable is_done : St -> bool.
Variable parse_line : text -> St -> lresult St.

(** A line which is complete in itself: it is not continued with a backslash and does not
    begin with a byte order mark. *)
Definition plain (l : text) : Prop :=
  (forall t, trim_space l <> t ++ [ascii_of_N 92]) /\ (forall t, l <> bom ++ t).
(** Included files consist of such lines and have names. *)
Definition plain_includes : Prop :=
  forall t s n ls s' after, parse_line t s = LInclude n (Some ls) s' after -> n <> [] /\ Forall plain ls.

(** Lines which are read without an error, [level] included files deep at most *)
Inductive line_ok : nat -> text -> St -> St -> Prop :=
| ok_plain : forall lv t s s', parse_line t s = LOk s' -> line_ok lv t s s'
| ok_include : forall lv t s n ls s1 after s2 s3, parse_line t s = LInclude n (Some ls) s1 after ->
    file_ok lv ls s1 s2 -> after s2 = inl s3 -> line_ok (S lv) t s s3
with lines_ok : nat -> list text -> St -> St -> Prop :=
| ok_nil : forall lv s, lines_ok lv [] s s
| ok_cons : forall lv t l s s1 s2, is_done s = false -> line_ok lv t s s1 -> lines_ok lv l s1 s2 -> lines_ok lv (t :: l) s s2
with file_ok : nat -> list text -> St -> St -> Prop :=
| ok_all : forall lv ls s s', lines_ok lv ls s s' -> file_ok lv ls s s'
| ok_done : forall lv ls rest s s', lines_ok lv ls s s' -> is_done s' = true -> file_ok lv (ls ++ rest) s s'.

(** The first error: in the line after those which were read, or in a file which this line
    includes.  A place is the name of an included file, if it is in one, and the number of a
    line, counted from 1. *)
Inductive line_fails : nat -> option text -> nat -> text -> St -> option text -> nat -> text -> Prop :=
| fails_itself : forall lv f n t s m, parse_line t s = LFail m -> line_fails lv f n t s f n m
| fails_open : forall lv f n t s name s' after, parse_line t s = LInclude name None s' after ->
    line_fails lv f n t s f n (T "Opening include file '" ++ name ++ T "' failed")
| fails_deep : forall f n t s name ls s' after, parse_line t s = LInclude name (Some ls) s' after ->
    line_fails 0 f n t s f n (T "Recursive includes detected")
| fails_after : forall lv f n t s name ls s1 after s2 m, parse_line t s = LInclude name (Some ls) s1 after ->
    file_ok lv ls s1 s2 -> after s2 = inr m -> line_fails (S lv) f n t s f n m
| fails_inside : forall lv f n t s name ls s1 after f' n' m, parse_line t s = LInclude name (Some ls) s1 after ->
    file_fails lv (Some name) ls s1 f' n' m -> line_fails (S lv) f n t s f' n' m
with file_fails : nat -> option text -> list text -> St -> option text -> nat -> text -> Prop :=
| fails_line : forall lv f before t rest s s' f' n' m, lines_ok lv before s s' -> is_done s' = false ->
    line_fails lv f (S (length before)) t s' f' n' m -> file_fails lv f (before ++ t :: rest) s f' n' m.

(** How a place is told, for a line whose number is written as [d] *)
Definition told (m : text) (f : option text) (d : text) : text :=
  m ++ match f with Some name => T " in file '" ++ name ++ T "'" | None => [] end ++ T " in line " ++ d.
End Spec.

(** * Proofs *)

Section Proofs.
Variable St : Type.
Variable is_done : St -> bool.
Variable parse_line : text -> St -> lresult St.
Hypothesis PI : plain_includes St parse_line.
Notation pfile := (place_file St is_done parse_line).
Notation lok := (line_ok St is_done parse_line).
Notation lsok := (lines_ok St is_done parse_line).
Notation fok := (file_ok St is_done parse_line).
Notation lfails := (line_fails St is_done parse_line).
Notation ffails := (file_fails St is_done parse_line).

Definition file_of (f : option text) : text := match f with Some name => name | None => [] end.
Definition named (f : option text) : Prop := f <> Some [].

Lemma skip_app : forall p l q, skip p l = Some q -> l = p ++ q.
Proof.
  induction p as [|c p IH]; intros l q H; [now injection H as ->|]. destruct l as [|x l]; [discriminate H|]. cbn in H.
  destruct (Ascii.eqb_spec c x) as [->|N0]; [|discriminate H]. cbn. f_equal. now apply IH.
Qed.
Lemma back_app {A} (l : list A) x : back l = Some x -> exists t, l = t ++ [x].
Proof.
  intro H. destruct l as [|y l _] using rev_ind; [discriminate H|]. exists l. unfold back in H. rewrite rev_app_distr in H. cbn in H. now injection H as ->.
Qed.

Definition verdict (lv : nat) (f : option text) (before : list text) (s0 : St) (ls : list text) (x : reader St + text) : Prop :=
  match x with
  | inl r => rd_file r = file_of f /\ fok lv (before ++ ls) s0 (rd_st r)
  | inr e => exists f' n m, ffails lv f (before ++ ls) s0 f' n m /\ n <> 0 /\ named f' /\ e = told m f' (to_string_N (N.of_nat n))
  end.

Lemma error_told m f n s : named f -> n <> 0 -> config_error St m (Rd (file_of f) n s) = told m f (to_string_N (N.of_nat n)).
Proof.
  intros F N0. unfold config_error, told. cbn [rd_file rd_line]. apply Nat.eqb_neq in N0. rewrite N0.
  destruct f as [[|c f]|]; cbn [file_of]; [now destruct F| |reflexivity]. now rewrite <- !app_assoc.
Qed.

Lemma lines_snoc lv before t s s1 s2 : lsok lv before s s1 -> is_done s1 = false -> lok lv t s1 s2 -> lsok lv (before ++ [t]) s s2.
Proof.
  intros H D L. induction H as [lv s|lv u l s sa sb D' L' H IH]; cbn [app].
  - eapply ok_cons; [exact D|exact L|apply ok_nil].
  - eapply ok_cons; [exact D'|exact L'|apply IH; assumption].
Qed.

Lemma read_verdict lv handle f :
  named f ->
  (forall t n s, n <> 0 -> match handle t (Rd (file_of f) n s) with
     | inl r => rd_file r = file_of f /\ rd_line r = n /\ lok lv t s (rd_st r)
     | inr e => exists f' n' m, lfails lv f n t s f' n' m /\ n' <> 0 /\ named f' /\ e = told m f' (to_string_N (N.of_nat n'))
     end) ->
  forall ls before s0 s, Forall plain ls -> lsok lv before s0 s ->
  verdict lv f before s0 ls (read_lines St is_done handle ls [] (Rd (file_of f) (length before) s)).
Proof.
  intros NF HH. induction ls as [|l ls IH]; intros before s0 s P L; cbn [read_lines].
  - split; [reflexivity|]. rewrite app_nil_r. now apply ok_all.
  - cbn [rd_st rd_file rd_line]. destruct (is_done s) eqn:D; [split; [reflexivity|now apply ok_done]|].
    inversion_clear P as [|? ? Pl Ps]. destruct Pl as [NB NM].
    assert (SB : strip_bom l = l).
    { unfold strip_bom. destruct (skip bom l) eqn:Q; [|reflexivity]. apply skip_app in Q. now destruct (NM _ Q). }
    replace (if (length before =? 0)%nat then strip_bom l else l) with l by (destruct (length before =? 0)%nat; congruence).
    assert (GO : verdict lv f before s0 (l :: ls)
      (match handle ([] ++ l) (Rd (file_of f) (S (length before)) s) with inl r => read_lines St is_done handle ls [] r | inr e => inr e end)).
    { specialize (HH ([] ++ l) (S (length before)) s (Nat.neq_succ_0 _)). cbn [app] in *.
      destruct (handle l (Rd (file_of f) (S (length before)) s)) as [r|e].
      - destruct r as [rf rl rs]. cbn [rd_file rd_line rd_st] in HH. destruct HH as (-> & -> & Lo).
        replace (S (length before)) with (length (before ++ [l])) by (rewrite app_length; cbn; lia).
        specialize (IH (before ++ [l]) s0 rs Ps (lines_snoc lv before l s0 s rs L D Lo)).
        unfold verdict in *. rewrite <- app_assoc in IH. exact IH.
      - destruct HH as (f' & n' & m & F & R). exists f', n', m. split; [|exact R]. eapply fails_line; eauto. }
    destruct (back (trim_space l)) as [x|] eqn:B; [|exact GO]. destruct (code x =? 92)%N eqn:X; [|exact GO].
    exfalso. apply back_app in B. destruct B as [t Bt]. apply (NB t). rewrite Bt. apply N.eqb_eq in X. unfold code in X.
    rewrite <- X, ascii_N_embedding. reflexivity.
Qed.

Lemma place_verdict : forall lv f ls r, named f -> Forall plain ls ->
  match pfile lv (file_of f) ls r with
  | inl r' => rd_file r' = rd_file r /\ rd_line r' = rd_line r /\ fok lv ls (rd_st r) (rd_st r')
  | inr e => exists f' n m, ffails lv f ls (rd_st r) f' n m /\ n <> 0 /\ named f' /\ e = told m f' (to_string_N (N.of_nat n))
  end.
Proof.
  induction lv as [|lv IH]; intros f ls r NF P; cbn [place_file].
  - match goal with |- context [read_lines St is_done ?h _ _ _] => set (handle := h) end.
    pose proof (read_verdict 0 handle f NF) as V.
    assert (HH : forall t n s, n <> 0 -> match handle t (Rd (file_of f) n s) with
     | inl r => rd_file r = file_of f /\ rd_line r = n /\ lok 0 t s (rd_st r)
     | inr e => exists f' n' m, lfails 0 f n t s f' n' m /\ n' <> 0 /\ named f' /\ e = told m f' (to_string_N (N.of_nat n'))
     end).
    { intros t n s N0. unfold handle. cbn [rd_st]. destruct (parse_line t s) as [s'|m|name [ls'|] s' after] eqn:Q; cbn.
      - split; [reflexivity|]. split; [reflexivity|]. now apply ok_plain.
      - exists f, n, m. split; [now apply fails_itself|]. split; [exact N0|]. split; [exact NF|now apply error_told].
      - exists f, n, (T "Recursive includes detected"). split; [eapply fails_deep; eauto|]. split; [exact N0|]. split; [exact NF|now apply error_told].
      - exists f, n, (T "Opening include file '" ++ name ++ T "' failed"). split; [eapply fails_open; eauto|]. split; [exact N0|]. split; [exact NF|].
        now apply error_told. }
    specialize (V HH ls [] (rd_st r) (rd_st r) P (ok_nil _ _ _ _ _)). cbn [length] in V.
    destruct (read_lines _ _ _ _ _ _) as [r'|e]; [|exact V]. destruct V as [_ V]. cbn. auto.
  - match goal with |- context [read_lines St is_done ?h _ _ _] => set (handle := h) end.
    pose proof (read_verdict (S lv) handle f NF) as V.
    assert (HH : forall t n s, n <> 0 -> match handle t (Rd (file_of f) n s) with
     | inl r => rd_file r = file_of f /\ rd_line r = n /\ lok (S lv) t s (rd_st r)
     | inr e => exists f' n' m, lfails (S lv) f n t s f' n' m /\ n' <> 0 /\ named f' /\ e = told m f' (to_string_N (N.of_nat n'))
     end).
    { intros t n s N0. unfold handle. cbn [rd_st]. destruct (parse_line t s) as [s'|m|name [ls'|] s' after] eqn:Q.
      - cbn. split; [reflexivity|]. split; [reflexivity|]. now apply ok_plain.
      - exists f, n, m. split; [now apply fails_itself|]. split; [exact N0|]. split; [exact NF|now apply error_told].
      - destruct (PI _ _ _ _ _ _ Q) as [NN PL]. assert (NS : named (Some name)) by (intro X; injection X as X; auto).
        specialize (IH (Some name) ls' (put_st St s' (Rd (file_of f) n s)) NS PL). cbn [file_of] in IH.
        destruct (pfile lv name ls' _) as [[rf rl rs]|e].
        + cbn in IH. destruct IH as (-> & -> & FO). cbn [rd_st]. destruct (after rs) as [s2|m] eqn:A.
          * cbn. split; [reflexivity|]. split; [reflexivity|]. eapply ok_include; eauto.
          * exists f, n, m. split; [eapply fails_after; eauto|]. split; [exact N0|]. split; [exact NF|]. now apply error_told.
        + destruct IH as (f' & n' & m & FF & R). exists f', n', m. split; [eapply fails_inside; eauto|exact R].
      - exists f, n, (T "Opening include file '" ++ name ++ T "' failed"). split; [eapply fails_open; eauto|]. split; [exact N0|]. split; [exact NF|].
        now apply error_told. }
    specialize (V HH ls [] (rd_st r) (rd_st r) P (ok_nil _ _ _ _ _)). cbn [length] in V.
    destruct (read_lines _ _ _ _ _ _) as [r'|e]; [|exact V]. destruct V as [_ V]. cbn. auto.
Qed.
End Proofs.

(** * The theorems *)

(** The text of an error tells the file and the line of the first error, wherever files are
    included; without one, all lines were read.  Partial: no line is continued in the next. *)
Theorem C122_place_partial : forall St is_done parse_line lines s,
  plain_includes St parse_line -> Forall plain lines ->
  match place_config St is_done parse_line lines s with
  | inl r => file_ok St is_done parse_line 10 lines s (rd_st r)
  | inr e => exists f n m d, file_fails St is_done parse_line 10 None lines s f n m /\ e = told m f d /\
      ((N.of_nat n < 10 ^ 40)%N -> decimal n d)
  end.
Proof.
  intros St dn pl lines s PI P. pose proof (place_verdict St dn pl PI 10 None lines (Rd [] 0 s)) as V.
  specialize (V ltac:(discriminate) P). unfold place_config. cbn [file_of] in V. destruct (place_file St dn pl 10 [] lines _) as [r|e].
  - apply V.
  - destruct V as (f & n & m & F & _ & _ & ->). exists f, n, m, (to_string_N (N.of_nat n)). split; [exact F|]. split; [reflexivity|].
    apply to_string_decimal.
Qed.
Print Assumptions C122_place_partial.

(** What the user is shown of an error is all of it if it fits. *)
Theorem C122_shown_partial : forall m f d, (N.of_nat (length (told m f d)) < 2048)%N -> printed (told m f d) = told m f d.
Proof. intros m f d L. unfold printed. apply firstn_all2. lia. Qed.
Print Assumptions C122_shown_partial.

(** A small language: a line is a word; [bad] is an error, [in] includes a file of two lines
    of which the second is an error the second time it is read. *)
Definition tiny (l : text) (s : nat) : lresult nat :=
  if text_eqb l (T "bad") then LFail (T "Unexpected 'bad'")
  else if text_eqb l (T "worse") then (if s =? 2 then LFail (T "Unexpected 'worse'") else LOk s)
  else if text_eqb l (T "in") then LInclude (T "more.conf") (Some [T "a"; T "worse"]) (S s) (fun s => inl s)
  else LOk s.
Definition never (_ : nat) : bool := false.
Lemma plain_tiny l : In l [T "a"; T "worse"; T "in"; T "bad"] -> plain l.
Proof.
  intro H. split; intros t E.
  - apply (f_equal (@back ascii)) in E. unfold back in E. rewrite rev_app_distr in E. cbn [rev app] in E.
    repeat (destruct H as [<-|H]; [vm_compute in E; discriminate E|]). destruct H.
  - apply (f_equal (fun x => hd_error x)) in E. repeat (destruct H as [<-|H]; [vm_compute in E; discriminate E|]). destruct H.
Qed.
Example C122_case :
  plain_includes nat tiny /\ Forall plain [T "a"; T "in"; T "bad"] /\
  place_config nat never tiny [T "a"; T "in"; T "bad"] 0 = inr (T "Unexpected 'bad' in line 3") /\
  place_config nat never tiny [T "in"; T "a"; T "in"; T "bad"] 0 = inr (T "Unexpected 'worse' in file 'more.conf' in line 2") /\
  place_config nat never tiny [T "a"; T "in"] 0 = inl (Rd [] 0 1).
Proof.
  split; [|split; [|vm_compute; auto]].
  - intros t s n ls s' after H. unfold tiny in H. destruct (text_eqb t (T "bad")); [discriminate H|].
    destruct (text_eqb t (T "worse")); [destruct (s =? 2); discriminate H|]. destruct (text_eqb t (T "in")); [|discriminate H].
    injection H as <- <- _ _. split; [discriminate|]. repeat constructor; apply plain_tiny; cbn; auto.
  - repeat constructor; apply plain_tiny; cbn; auto.
Qed.

(** Where lines are continued the last of them is told, though the error is in the first
    one, whatever follows. *)
Theorem C122_continued_refuted : exists parse_line l l' m,
  (forall t, parse_line (l ++ t) 0 = LFail m) /\ ~ In (ascii_of_N 10) l /\
  place_config nat never parse_line [l ++ [ascii_of_N 92]; l'; T "x"] 0 = inr (told m None (T "2")).
Proof.
  exists (fun t (_ : nat) => match skip (T "bad") t with Some _ => LFail (T "Unexpected") | None => LOk 0 end), (T "bad"), (T "good"), (T "Unexpected").
  split; [intro t; reflexivity|]. split; [|vm_compute; reflexivity].
  intro H. repeat (destruct H as [H|H]; [discriminate H|]). destruct H.
Qed.
Print Assumptions C122_continued_refuted.
(** Of an error which quotes a long text the place is cut off: here the rest of a line of two
    thousand characters. *)
Theorem C122_cut_refuted : exists m, (exists x, m = T "Unexpected '" ++ x ++ T "'") /\ forall f d, printed (told m f d) = m.
Proof.
  exists (T "Unexpected '" ++ repeat "x"%char (N.to_nat 2034) ++ T "'"). split; [eexists; reflexivity|]. intros f d. unfold told, printed.
  rewrite firstn_app. replace (N.to_nat 2047 - length (T "Unexpected '" ++ repeat "x"%char (N.to_nat 2034) ++ T "'")) with 0 by (vm_compute; reflexivity).
  rewrite firstn_O, app_nil_r. vm_compute. reflexivity.
Qed.
Print Assumptions C122_cut_refuted.
