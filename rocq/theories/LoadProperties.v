(** Loading a configuration is free of undefined behaviour (C97), as far as it holds. *)
From Coq Require Import String Ascii List Arith NArith ZArith Bool Lia.
From Verif Require Import Base Key Text TextSpec TextProofs ParseSeq Stage Config Replay MacroSpec LoadSpec LoadDefined.
Import ListNotations.
Local Open Scope nat_scope.

(** * C97 *)

Definition nl : text := [ascii_of_N 10].
Definition dq : text := [quote2].
Definition loading (t : text) : pres config :=
  parse_config generic_typer (fun _ _ => true) (fun _ => None) (T "Linux") t.

(** A context for windows titled slash-i (in quotes), a condition with a number which does not
    fit into an int and a sum which does not fit into an int: each of the three files leads
    the parser into undefined behaviour, whatever the keyboard layout, the judgement
    about regular expressions, the included files and the system. *)
Theorem C97_refuted : exists filter number sum,
  filter = T "[title=" ++ dq ++ T "/i" ++ dq ++ T "]" ++ nl ++ T "A >> B" /\
  number = T "A{4294967296ms} >> B" /\
  sum = T "A{add[2147483647, 1]ms} >> B" /\
  forall typer regex_ok read_file system t, In t [filter; number; sum] ->
  parse_config typer regex_ok read_file system t = PUB.
Proof.
  eexists _, _, _. split; [reflexivity|]. split; [reflexivity|]. split; [reflexivity|].
  intros typer ro rf cs t H. destruct H as [<-|[<-|[<-|[]]]]; vm_compute; reflexivity.
Qed.
Print Assumptions C97_refuted.

(** A careful configuration (see LoadSpec.v: no macro calls, no number of ten or more digits,
    no regular expression in quotes, no variables in strings, macros which stand for key
    expressions) with careful included files never leads the parser into undefined
    behaviour, for every keyboard layout, every judgement about regular expressions and
    every system.  Missing: files with calls, variables or macros for strings and regular
    expressions. *)
Theorem C97_partial : forall typer regex_ok read_file system t,
  (forall f lines, read_file f = Some lines -> careful (skip_bom lines)) ->
  careful (skip_bom (split_lines t [])) ->
  parse_config typer regex_ok read_file system t <> PUB.
Proof.
  intros typer ro rf cs t F H E. pose proof (config_fine typer ro rf cs F t H) as K.
  now rewrite E in K.
Qed.
Print Assumptions C97_partial.

(** * A case *)

Fixpoint pairs_ok (t : text) : bool :=
  match t with
  | x :: (y :: _) as r => negb (bad_pair x y) && pairs_ok r
  | _ => true
  end.
Lemma pairs_dec : forall t, pairs_ok t = true -> forall a x y b, t = a ++ x :: y :: b -> bad_pair x y = false.
Proof.
  intros t H a. revert t H. induction a as [|c a IH]; intros t H x y b ->.
  - cbn in H. apply andb_prop in H as [H _]. now apply negb_true_iff.
  - apply (IH (a ++ x :: y :: b)) with b; [|reflexivity].
    cbn [app pairs_ok] in H. destruct (a ++ x :: y :: b); [reflexivity|]. now apply andb_prop in H.
Qed.
Lemma short_dec : forall t, short_numbers 0 t = true -> short t.
Proof. intros t H a d b -> F. apply (short_infix a d b 0); [lia|exact F|exact H]. Qed.

Definition definition_of (l : text) : option (text * text) :=
  let '(i, q) := read_ident (drop_space l) in
  match drop_space q with
  | c :: v => if Ascii.eqb c "=" then Some (i, v) else None
  | [] => None
  end.
Lemma drop_spaces : forall a r, Forall (fun c => is_space c = true) a -> drop_space (a ++ r) = drop_space r.
Proof. induction 1 as [|c a H F IH]; [reflexivity|]. cbn. now rewrite H. Qed.
Lemma defines_dec : forall l n v, defines l n v -> definition_of l = Some (n, v).
Proof.
  intros l n v [a [b [-> [Fa [Fb Fn]]]]]. unfold definition_of. rewrite drop_spaces by exact Fa.
  assert (R : forall r, match r with c :: _ => is_ident_char c = false | [] => True end ->
              read_ident (n ++ r) = (n, r)).
  { intros r Hr. clear - Fn Hr. induction Fn as [|c n H F IH].
    - destruct r as [|c r]; [reflexivity|]. cbn. now rewrite Hr.
    - cbn. now rewrite H, IH. }
  destruct n as [|c n].
  - cbn [app]. rewrite drop_spaces by exact Fb. reflexivity.
  - inversion Fn as [|? ? Hc Fn']; subst.
    assert (E : drop_space ((c :: n) ++ b ++ "="%char :: v) = (c :: n) ++ b ++ "="%char :: v).
    { cbn. now rewrite (proj2 (ident_simple c Hc)). }
    rewrite E, R.
    + rewrite drop_spaces by exact Fb. reflexivity.
    + destruct Fb as [|d b H F]; [reflexivity|]. cbn.
      destruct (is_ident_char d) eqn:K; [|reflexivity]. apply ident_simple in K. destruct K. congruence.
Qed.
Definition line_ok (l : text) : bool :=
  short_numbers 0 l && pairs_ok l &&
  match definition_of l with
  | Some (n, v) => negb (text_eqb n []) && short_numbers 0 v && forallb simple_char v
                   && existsb (fun c => negb (is_space c)) v
  | None => true
  end.
Lemma line_dec : forall l, line_ok l = true -> careful_line l.
Proof.
  intros l H. unfold line_ok in H. apply andb_prop in H as [H D]. apply andb_prop in H as [H P].
  split; [split; [now apply short_dec|now apply pairs_dec]|].
  intros n v E. rewrite (defines_dec _ _ _ E) in D. do 3 apply andb_prop in D as [D ?].
  split; [intros ->; discriminate|]. split; [now apply short_dec|]. split.
  - apply Forall_forall. now apply forallb_forall.
  - apply Exists_exists. apply existsb_exists in H0. destruct H0 as [x [X1 X2]]. exists x.
    split; [exact X1|]. now apply negb_true_iff.
Qed.
Lemma careful_dec : forall l, forallb line_ok (whole_lines l []) = true -> careful l.
Proof.
  intros l H. apply Forall_forall. intros x Hx. apply line_dec.
  rewrite forallb_forall in H. now apply H.
Qed.

(** A file with macros, a logical key, a regular expression, strings, a timeout, a command, a
    comment, a continued line and an included file is careful and is loaded. *)
Definition included : list text := [T "Both = X | Y"; T "Wait = 500ms"].
Definition example_files (f : text) : option (list text) :=
  if text_eqb f (T "more.conf") then Some included else None.
Definition example : text :=
  T "@include " ++ dq ++ T "more.conf" ++ dq ++ nl ++
  T "Boss = Virtual1  " ++ nl ++
  T "Twice = A !Wait B" ++ nl ++ nl ++
  T "[title=/Fire.*fox/i, class=" ++ dq ++ T "xterm" ++ dq ++ T "]   # windows" ++ nl ++
  T "Both Twice >> " ++ dq ++ T "it costs 5$" ++ dq ++ T " \" ++ nl ++
  T "   $(echo 12)" ++ nl ++
  T "C >> command" ++ nl ++ T "command >> Boss".
Lemma example_files_careful : forall f ls, example_files f = Some ls -> careful (skip_bom ls).
Proof.
  intros f ls. unfold example_files. destruct (text_eqb f (T "more.conf")); [|discriminate].
  intros E. injection E as <-. apply careful_dec. vm_compute. reflexivity.
Qed.
Lemma example_careful : careful (skip_bom (split_lines example [])).
Proof. apply careful_dec. vm_compute. reflexivity. Qed.
Example C97_case : parse_config generic_typer (fun _ _ => true) example_files (T "Linux") example <> PUB
  /\ exists c, parse_config generic_typer (fun _ _ => true) example_files (T "Linux") example = POk c.
Proof.
  split; [apply (C97_partial _ _ _ _ _ example_files_careful example_careful)|].
  eexists. vm_compute. reflexivity.
Qed.
