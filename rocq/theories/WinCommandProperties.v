(** Properties C108 and C109: terminal commands, the focused window and validation on
    Windows. *)
From Coq Require Import String Ascii List Arith NArith Bool Lia.
From Verif Require Import Base WinCommand WinCommandSpec.
Import ListNotations.
Local Open Scope N_scope.

(** ** C108 Terminal commands on Windows *)

Definition w (s : string) : wide := map N_of_ascii (list_ascii_of_string s).
Definition w_cmd : wide := w "CMD /C ".

Lemma strchr_special c : 0 < c < 256 -> strchr c = true <-> special c.
Proof.
  intros R. unfold strchr, special, control_characters. rewrite N.mod_small by lia. cbn [existsb].
  rewrite !orb_true_iff, !N.eqb_eq. intuition (try discriminate; lia).
Qed.
Lemma contains_spec l : narrow l -> forall b,
  contains_control b l = true <->
  exists a c r, l = a ++ c :: r /\ special c /\ Nat.even (count_occ N.eq_dec a dquote) = negb b.
Proof.
  induction l as [|x l IH]; intros F b; cbn [contains_control].
  - split; [discriminate|]. intros ([|? ?] & ? & ? & H & _); discriminate H.
  - inversion_clear F as [|? ? Rx Fl]. specialize (IH Fl).
    set (b' := if x =? dquote then negb b else b).
    assert (Step : contains_control b' l = true <->
      exists a c r, x :: l = (x :: a) ++ c :: r /\ special c /\ Nat.even (count_occ N.eq_dec (x :: a) dquote) = negb b).
    { rewrite IH. unfold b'. split; intros (a & c & r & E & Sc & Ev).
      - exists a, c, r. subst l. split; [reflexivity|]. split; [exact Sc|]. cbn [count_occ]. destruct (N.eq_dec x dquote) as [->|Nx].
        + rewrite N.eqb_refl in Ev. rewrite Nat.even_succ, <- Nat.negb_even, Ev. now destruct b.
        + apply N.eqb_neq in Nx. rewrite Nx in Ev. exact Ev.
      - exists a, c, r. injection E as ->. split; [reflexivity|]. split; [exact Sc|]. cbn [count_occ] in Ev. destruct (N.eq_dec x dquote) as [->|Nx].
        + rewrite N.eqb_refl. rewrite Nat.even_succ, <- Nat.negb_even in Ev. apply (f_equal negb) in Ev. rewrite negb_involutive in Ev. rewrite Ev. now destruct b.
        + apply N.eqb_neq in Nx. rewrite Nx. exact Ev. }
    destruct (negb b' && strchr x) eqn:Hit.
    + split; [intros _|reflexivity]. apply andb_true_iff in Hit. destruct Hit as [Hb Hs]. apply strchr_special in Hs; [|exact Rx].
      assert (Nx : x <> dquote) by (unfold special in Hs; unfold dquote; lia).
      exists [], x, l. split; [reflexivity|]. split; [exact Hs|]. unfold b' in Hb. apply N.eqb_neq in Nx. rewrite Nx in Hb. now rewrite Hb.
    + rewrite Step. split; [intros (a & c & r & E & H); exists (x :: a), c, r; auto|].
      intros (a & c & r & E & Sc & Ev). destruct a as [|y a]; [|injection E as <- E; exists a, c, r; rewrite E; auto].
      exfalso. injection E as <- <-. assert (Hs : strchr x = true) by now apply strchr_special.
      assert (Nx : x <> dquote) by (unfold special in Sc; unfold dquote; lia). unfold b' in Hit. apply N.eqb_neq in Nx. rewrite Nx, Hs in Hit.
      cbn in Ev. rewrite <- Ev in Hit. discriminate Hit.
Qed.

Section Files.
Variable file_exists : wide -> bool.

Lemma prefix_found n command : (n <= length command)%nat -> existing_prefix file_exists n command <> [] ->
  let name := existing_prefix file_exists n command in
  file_exists name = true /\ (exists args, command = name ++ args) /\
  forall m, (m <= n)%nat -> file_exists (firstn m command) = true -> (m <= length name)%nat.
Proof.
  induction n as [|n IH]; intros L Ne; [now elim Ne|]. cbn [existing_prefix] in *. destruct (file_exists (firstn (S n) command)) eqn:Fe.
  - split; [exact Fe|]. split; [exists (skipn (S n) command); now rewrite firstn_skipn|]. intros m Hm _.
    rewrite firstn_length, Nat.min_l by lia. lia.
  - destruct (IH ltac:(lia) Ne) as (A & B & C). split; [exact A|]. split; [exact B|]. intros m Hm Hf.
    destruct (Nat.eq_dec m (S n)) as [->|Nm]; [congruence|]. apply C; [lia|exact Hf].
Qed.
Lemma prefix_none n command : (n <= length command)%nat -> existing_prefix file_exists n command = [] ->
  forall m, (0 < m <= n)%nat -> file_exists (firstn m command) = false.
Proof.
  induction n as [|n IH]; intros L Ne m Hm; [lia|]. cbn [existing_prefix] in Ne. destruct (file_exists (firstn (S n) command)) eqn:Fe.
  - exfalso. destruct command; [cbn in L; lia|discriminate Ne].
  - destruct (Nat.eq_dec m (S n)) as [->|Nm]; [exact Fe|]. apply IH; [lia|exact Ne|lia].
Qed.
Lemma unquoted_name command : ~ quote_first command -> get_filename file_exists command = existing_prefix file_exists (length command) command.
Proof.
  intros Q. destruct command as [|c r]; [reflexivity|]. cbn [get_filename]. unfold squote, dquote.
  destruct (N.eqb_spec c 39); [exfalso; apply Q; exists c, r; auto|]. destruct (N.eqb_spec c 34); [exfalso; apply Q; exists c, r; auto|]. reflexivity.
Qed.
Lemma prefix_longest command : existing_prefix file_exists (length command) command <> [] ->
  longest_file file_exists command (existing_prefix file_exists (length command) command).
Proof.
  intros Ne. destruct (prefix_found (length command) command (le_n _) Ne) as (A & B & C). split; [exact Ne|]. split; [exact A|]. split; [exact B|].
  intros name' args' E Nn Fe. apply C; [rewrite E, app_length; lia|]. rewrite E, firstn_app, firstn_all, Nat.sub_diag. cbn [firstn]. now rewrite app_nil_r.
Qed.
End Files.

(** A command is passed on as it is, or to the terminal as it is. *)
Lemma unchanged : forall file_exists command,
  execute_terminal_command file_exists command = command \/ execute_terminal_command file_exists command = cmd_c ++ command.
Proof. intros fe c. unfold execute_terminal_command. destruct (_ && _); auto. Qed.

(** Commands which do not begin with a quotation mark are run without the terminal exactly
    when they begin with the name of a file, after whose longest such name nothing for
    the terminal stands outside of quotes. *)
Theorem C108_direct_partial : forall file_exists command, narrow command -> ~ quote_first command ->
  execute_terminal_command file_exists command = command <->
  exists name args, longest_file file_exists command name /\ command = name ++ args /\ ~ unquoted_special args.
Proof.
  intros fe command F Q. unfold execute_terminal_command. rewrite (unquoted_name fe command Q).
  set (name := existing_prefix fe (length command) command).
  assert (NQ : command <> cmd_c ++ command) by (intros E; apply (f_equal (@length N)) in E; rewrite app_length in E; cbn in E; lia).
  assert (Args : forall args, command = name ++ args -> skipn (length name) command = args).
  { intros args E. rewrite E at 1. rewrite skipn_app, skipn_all, Nat.sub_diag. reflexivity. }
  assert (Sp : forall args, command = name ++ args -> contains_control false args = true <-> unquoted_special args).
  { intros args E. unfold unquoted_special. rewrite contains_spec; [reflexivity|]. rewrite E in F. apply Forall_app in F. apply F. }
  assert (Dec : name = [] \/ name <> []) by (destruct name; [now left|right; discriminate]).
  destruct Dec as [Nn|Nn].
  - rewrite Nn. cbn [negb andb]. split; [intros E; elim NQ; now rewrite E|].
    intros (n & args & (Ne & Fe & (a' & Ea) & Mx) & E & Hs). exfalso.
    assert (X : fe (firstn (length n) command) = false).
    { apply (prefix_none fe (length command) command (le_n _) Nn). split; [destruct n; [congruence|cbn; lia]|]. rewrite Ea, app_length. lia. }
    rewrite Ea, firstn_app, firstn_all, Nat.sub_diag in X. cbn [firstn] in X. rewrite app_nil_r in X. congruence.
  - pose proof (prefix_longest fe command Nn) as Lg. fold name in Lg. destruct Lg as (_ & Fe & (args & Ea) & Mx).
    rewrite (Args args Ea). destruct name as [|n0 nr] eqn:En; [congruence|]. rewrite <- En in *. replace (match name with [] => true | _ => false end) with false by (now rewrite En).
    cbn [negb andb]. destruct (contains_control false args) eqn:C.
    + cbn [negb]. split; [intros E; elim NQ; now rewrite E|]. intros (n & args' & (Ne & Fe' & _ & Mx') & E & Hs). exfalso.
      assert (L1 : (length n <= length name)%nat) by (apply (Mx n args' E Ne Fe')).
      assert (L2 : (length name <= length n)%nat) by (apply (Mx' name args Ea Nn Fe)).
      assert (n = name /\ args' = args) as [-> ->].
      { rewrite Ea in E. assert (Le : length name = length n) by lia. clear -E Le. revert n Le E. induction name as [|x name IH]; intros [|y n] Le E; try discriminate Le; [auto|].
        cbn in E. injection E as -> E. destruct (IH n ltac:(now injection Le) E) as [-> ->]. auto. }
      apply Hs. now apply (Sp args Ea).
    + cbn [negb]. split; [intros _|reflexivity]. exists name, args. split; [|split; [exact Ea|]].
      * split; [exact Nn|]. split; [exact Fe|]. split; [now exists args|exact Mx].
      * intros H. apply (Sp args Ea) in H. congruence.
Qed.
Print Assumptions C108_direct_partial.

(** All others are run by the terminal. *)
Corollary C108_terminal_partial : forall file_exists command, narrow command -> ~ quote_first command ->
  (forall name args, longest_file file_exists command name -> command = name ++ args -> unquoted_special args) ->
  execute_terminal_command file_exists command = w_cmd ++ command.
Proof.
  intros fe command F Q H. destruct (unchanged fe command) as [E|E]; [|exact E].
  apply (C108_direct_partial fe command F Q) in E. destruct E as (name & args & L & Ea & Ns). elim Ns. now apply (H name).
Qed.
Print Assumptions C108_terminal_partial.

Definition files (l : list string) (f : wide) : bool := existsb (fun s => wide_eqb (w s) f) l.
Example C108_case :
  let fe := files ["C:\x.exe"; "C:\Tom & me\y.exe"]%string in
  execute_terminal_command fe (w "C:\x.exe ""a & b"" c") = w "C:\x.exe ""a & b"" c" /\
  execute_terminal_command fe (w "C:\x.exe a > b") = w "CMD /C C:\x.exe a > b" /\
  execute_terminal_command fe (w "C:\Tom & me\y.exe a") = w "C:\Tom & me\y.exe a" /\
  execute_terminal_command fe (w "echo hi") = w "CMD /C echo hi".
Proof. vm_compute. auto. Qed.

(** A command which begins with a quote is run as it is when a file is named between the
    quotes and no special character occurs at all; it is given to the terminal when no file is
    named.  What special characters after the name do is refuted below. *)
Lemma before_spec c l : forall x, before c l = Some x <-> (exists b, l = x ++ c :: b) /\ ~ In c x.
Proof.
  induction l as [|y l IH]; intro x; cbn [before].
  - split; [discriminate|]. intros [[b E] _]. destruct x; discriminate E.
  - destruct (N.eqb_spec y c) as [->|N0].
    + split; [intros [= <-]; split; [now exists l|intros []]|]. intros [[b E] Ni]. destruct x as [|z x]; [reflexivity|].
      injection E as -> _. destruct Ni. now left.
    + destruct x as [|z x].
      * split; [destruct (before c l); discriminate|]. intros [[b E] _]. injection E as E _. now destruct N0.
      * split.
        -- destruct (before c l) as [v|] eqn:B; [|discriminate]. cbn. intros [= <- <-]. destruct (proj1 (IH v) eq_refl) as [[b E] Ni].
           split; [exists b; now rewrite E|]. intros [H|H]; auto.
        -- intros [[b E] Ni]. injection E as <- E. assert (B : before c l = Some x) by (apply IH; split; [now exists b|intro; apply Ni; now right]).
           now rewrite B.
Qed.
Theorem C108_quoted_partial : forall file_exists q r, q = 34 \/ q = 39 -> narrow (q :: r) ->
  ((forall name b, r = name ++ q :: b -> ~ In q name -> file_exists name = true -> name = []) ->
   execute_terminal_command file_exists (q :: r) = w_cmd ++ q :: r) /\
  (forall name b, r = name ++ q :: b -> ~ In q name -> name <> [] -> file_exists name = true ->
   (forall c, In c (q :: r) -> ~ special c) -> execute_terminal_command file_exists (q :: r) = q :: r).
Proof.
  intros fe q r Q F. assert (Hq : (q =? squote) || (q =? dquote) = true) by (destruct Q as [-> | ->]; reflexivity).
  unfold execute_terminal_command, get_filename. rewrite Hq. split.
  - intro H. destruct (before q r) as [x|] eqn:B; [|reflexivity]. destruct (proj1 (before_spec q r x) B) as [[b E] Ni].
    destruct (fe x) eqn:X; [|reflexivity]. rewrite (H x b E Ni X). reflexivity.
  - intros name b E Ni Ne X Sp. rewrite (proj2 (before_spec q r name)) by (split; [now exists b|exact Ni]). rewrite X.
    destruct name as [|z name]; [now destruct Ne|]. cbn [negb andb].
    assert (C : contains_control false (skipn (length (z :: name)) (q :: r)) = false); [|rewrite C; reflexivity].
    apply not_true_iff_false. intro C. rewrite contains_spec in C.
    + destruct C as (a & c & b' & Ea & Sc & _). apply (Sp c); [|exact Sc].
      rewrite <- (firstn_skipn (length (z :: name)) (q :: r)), Ea. apply in_or_app. right. apply in_or_app. right. now left.
    + unfold narrow in F. rewrite <- (firstn_skipn (length (z :: name)) (q :: r)) in F. apply Forall_app in F. apply F.
Qed.
Print Assumptions C108_quoted_partial.
Example C108_quoted_case :
  let fe := files ["C:\a b\x.exe"]%string in
  execute_terminal_command fe (w """C:\a b\x.exe"" -v") = w """C:\a b\x.exe"" -v" /\
  execute_terminal_command fe (w """C:\a b\y.exe"" -v") = cmd_c ++ w """C:\a b\y.exe"" -v" /\
  execute_terminal_command fe (w """C:\a b\x.exe") = cmd_c ++ w """C:\a b\x.exe".
Proof. vm_compute. auto. Qed.

(** After a file name in quotes the closing quote is taken for an opening one: what is
    outside of quotes is overlooked and given to the program, and what is inside is
    found.  Input redirection is not looked for, and a character such as U+0126 is taken
    for an ampersand. *)
Theorem C108_quoted_refuted : exists file_exists command command' command'' command''',
  narrow command /\ narrow command' /\ narrow command'' /\
  (exists args, command = w """C:\a b\x.exe""" ++ args /\ unquoted_special args) /\
  execute_terminal_command file_exists command = command /\
  (exists args, command' = w """C:\a b\x.exe""" ++ args /\ ~ unquoted_special args) /\
  execute_terminal_command file_exists command' = cmd_c ++ command' /\
  command'' = w "C:\x.exe < in" /\ execute_terminal_command file_exists command'' = command'' /\
  command''' = w "C:\x.exe " ++ [0x126] /\ execute_terminal_command file_exists command''' = cmd_c ++ command'''.
Proof.
  exists (files ["C:\a b\x.exe"; "C:\x.exe"]%string), (w """C:\a b\x.exe"" a > b"), (w """C:\a b\x.exe"" ""a & b"""), (w "C:\x.exe < in"), (w "C:\x.exe " ++ [0x126]).
  assert (Na : forall l, forallb (fun c => (0 <? c) && (c <? 256)) l = true -> narrow l).
  { intros l H. apply Forall_forall. intros c I. rewrite forallb_forall in H. specialize (H c I). apply andb_true_iff in H. rewrite !N.ltb_lt in H. exact H. }
  split; [apply Na; reflexivity|]. split; [apply Na; reflexivity|]. split; [apply Na; reflexivity|].
  split; [exists (w " a > b"); split; [reflexivity|]; exists (w " a "), 62, (w " b"); repeat split; unfold special; auto|].
  split; [vm_compute; reflexivity|].
  split; [exists (w " ""a & b"""); split; [reflexivity|]; intros H; apply (contains_spec _ (Na (w " ""a & b""") eq_refl) false) in H; discriminate H|].
  split; [vm_compute; reflexivity|]. split; [reflexivity|]. split; [vm_compute; reflexivity|]. split; [reflexivity|]. vm_compute. reflexivity.
Qed.
Print Assumptions C108_quoted_refuted.

(** A file which is named like the beginning of a command of the terminal keeps it from
    being run. *)
Theorem C108_builtin_refuted : exists file_exists command, command = w "echo hi" /\
  execute_terminal_command file_exists command = command.
Proof. exists (files ["e"]%string), (w "echo hi"). split; [reflexivity|]. vm_compute. reflexivity. Qed.
Print Assumptions C108_builtin_refuted.

(** ** C109 The focused window and validation on Windows *)

Lemma wide_eqb_spec a : forall b, wide_eqb a b = true <-> a = b.
Proof.
  induction a as [|x a IH]; intros [|y b]; cbn; try (split; discriminate || congruence).
  rewrite andb_true_iff, N.eqb_eq, IH. split; [intros [-> ->]; reflexivity|now intros [= -> ->]].
Qed.

(** The client looks at the focused window again and again; the result says whether
    something changed. *)
Definition focus_run (l : list (option (N * wwindow))) : wfocus := fold_left (fun f x => snd (focus_update x f)) l no_focus.

Lemma path_same (p : option wide) :
  match p with Some p => if N.of_nat (length p) <? 1024 then p else [] | None => [] end =
  match p with Some p => if (length p <=? 1023)%nat then p else [] | None => [] end.
Proof.
  destruct p as [p|]; [|reflexivity]. destruct (N.ltb_spec (N.of_nat (length p)) 1024), (Nat.leb_spec (length p) 1023); try reflexivity; exfalso; lia.
Qed.

(** What is known is the window which was focused last, as it was then. *)
Theorem C109_focus_partial : forall l, steady l -> (forall h w, In (Some (h, w)) l -> h <> 0) ->
  match last_focused l with
  | Some (h, w) => known_as (focus_run l) h w
  | None => focus_run l = no_focus
  end.
Proof.
  intros l. unfold focus_run. rewrite <- (rev_involutive l). induction (rev l) as [|x r IH]; intros S H0; [reflexivity|].
  cbn [rev] in *. rewrite fold_left_app. cbn [fold_left].
  assert (Lf : last_focused (rev r ++ [x]) = match x with Some y => Some y | None => last_focused (rev r) end).
  { generalize (rev r). intros q. induction q as [|z q IHq]; [now destruct x|]. cbn [app last_focused]. rewrite IHq. destruct x; [reflexivity|]. reflexivity. }
  rewrite Lf. assert (IH' := IH (fun h a b Ha Hb => S h a b (in_or_app _ _ _ (or_introl Ha)) (in_or_app _ _ _ (or_introl Hb)))
    (fun h a Ha => H0 h a (in_or_app _ _ _ (or_introl Ha)))). clear IH.
  set (f := fold_left (fun f x => snd (focus_update x f)) (rev r) no_focus) in *.
  destruct x as [[h a]|]; [|exact IH']. cbn [focus_update].
  destruct ((h =? wf_handle f) && wide_eqb (cut (ww_title a)) (wf_title f)) eqn:Q; cbn [snd].
  - apply andb_true_iff in Q. destruct Q as [Qh Qt]. apply N.eqb_eq in Qh. apply wide_eqb_spec in Qt.
    destruct (last_focused (rev r)) as [[h' a']|] eqn:L.
    + destruct IH' as (Hh & Ht & Hc & Hp). assert (Hhh : h' = h) by congruence. rewrite Hhh in L, Hh.
      assert (Il : forall q, last_focused q = Some (h, a') -> In (Some (h, a')) q).
      { induction q as [|z q IHq]; [discriminate|]. cbn [last_focused]. destruct (last_focused q); [intros [= ->]; right; now apply IHq|intros ->; now left]. }
      destruct (S h a' a) as [C P]; [apply in_or_app; left; exact (Il _ L)|apply in_or_app; right; now left|].
      split; [exact Hh|]. split; [now rewrite <- Qt|]. rewrite <- C, <- P. split; assumption.
    + exfalso. rewrite IH' in Qh. cbn in Qh. apply (H0 h a); [apply in_or_app; right; now left|exact Qh].
  - split; [reflexivity|]. split; [reflexivity|]. split; [reflexivity|]. apply path_same.
Qed.
Print Assumptions C109_focus_partial.

(** A change is reported when what is known changes, and only then. *)
Theorem C109_reported : forall x f, fst (focus_update x f) = true <-> snd (focus_update x f) <> f.
Proof.
  intros [[h a]|] f; cbn [focus_update]; [|cbn; split; [discriminate|congruence]].
  destruct ((h =? wf_handle f) && wide_eqb (cut (ww_title a)) (wf_title f)) eqn:Q; cbn [fst snd]; [split; [discriminate|congruence]|].
  split; [intros _ E|reflexivity]. rewrite <- E in Q. cbn [wf_handle wf_title] in Q. rewrite N.eqb_refl in Q.
  assert (X : wide_eqb (cut (ww_title a)) (cut (ww_title a)) = true) by now apply wide_eqb_spec. rewrite X in Q. discriminate Q.
Qed.
Print Assumptions C109_reported.

Example C109_focus_case :
  let l := [Some (7, Ww (w "a.txt") (w "Notepad") (Some (w "C:\n.exe"))); None; Some (9, Ww (w "x") (w "Term") None);
            Some (7, Ww (w "b.txt") (w "Notepad") (Some (w "C:\n.exe"))); None] in
  (forall h w, In (Some (h, w)) l -> h <> 0) /\ steady l /\ last_focused l = Some (7, Ww (w "b.txt") (w "Notepad") (Some (w "C:\n.exe"))) /\
  focus_run l = Wf 7 (w "b.txt") (w "Notepad") (w "C:\n.exe").
Proof.
  cbv zeta. split; [|split; [|split; vm_compute; reflexivity]].
  - intros h x H. cbn in H. repeat (destruct H as [H|H]; [first [discriminate H|injection H as <- _; discriminate]|]). destruct H.
  - intros h x y Hx Hy. cbn in Hx, Hy.
    repeat (destruct Hx as [Hx|Hx]; [first [discriminate Hx|injection Hx as <- <-;
      repeat (destruct Hy as [Hy|Hy]; [first [discriminate Hy|injection Hy as <-; split; reflexivity]|]); destruct Hy]|]); destruct Hx.
Qed.

(** A handle which is used again for a window with the same title is not noticed, nor is
    that no window is focused. *)
Theorem C109_reused_refuted : exists l h a, last l None = Some (h, a) /\ (forall h w, In (Some (h, w)) l -> h <> 0) /\
  wf_class (focus_run l) <> ww_class a.
Proof.
  exists [Some (7, Ww (w "Save") (w "Editor") None); Some (7, Ww (w "Save") (w "Browser") None)], 7, (Ww (w "Save") (w "Browser") None).
  split; [reflexivity|]. split; [intros h x [H|[H|[]]]; injection H as <- _; discriminate|]. vm_compute. discriminate.
Qed.
Print Assumptions C109_reused_refuted.
Theorem C109_none_refuted : exists l, last l (Some (7, Ww [] [] None)) = None /\ focus_run l <> no_focus.
Proof. exists [Some (7, Ww (w "Game") (w "Game") None); None]. split; [reflexivity|]. vm_compute. discriminate. Qed.
Print Assumptions C109_none_refuted.

(** *** Validation *)

Lemma valid_asked l : forall out v,
  fst (fold_left (fun x st => valid_step st x) l (out, v)) = out ++ asked (wv_inaccessible v) (ticks (wv_session v) l).
Proof.
  induction l as [|st l IH]; intros out v; [cbn; now rewrite app_nil_r|]. cbn [fold_left]. destruct st as [|i].
  - unfold valid_step. cbn [fst snd]. rewrite IH. reflexivity.
  - unfold valid_step. cbn [fst snd]. destruct v as [s a]. unfold validate_state. cbn [wv_session wv_inaccessible].
    destruct s; [rewrite IH; cbn; now rewrite <- app_assoc|]. destruct i; [rewrite IH; cbn; rewrite <- app_assoc; now rewrite andb_false_r|].
    destruct a; rewrite IH; cbn; now rewrite <- app_assoc.
Qed.
Theorem C109_validated : forall l, fst (valid_run l) = asked false (ticks false l).
Proof. intros l. unfold valid_run. now rewrite valid_asked. Qed.
Print Assumptions C109_validated.
Example C109_validated_case :
  fst (valid_run [VTimer false; VTimer true; VTimer true; VTimer false; VTimer false; VSession; VTimer false; VTimer false]) =
    [false; false; false; true; false; true; false].
Proof. vm_compute. reflexivity. Qed.

(** When the session changed while a window of another user is focused, validation is
    asked for at once, and not when it is over. *)
Theorem C109_early_refuted : exists l, ticks false l = [(false, false); (true, true); (false, false)] /\
  fst (valid_run l) = [false; true; false].
Proof. exists [VTimer false; VSession; VTimer true; VTimer false]. split; vm_compute; reflexivity. Qed.
Print Assumptions C109_early_refuted.
