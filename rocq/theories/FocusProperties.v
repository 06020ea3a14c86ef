(** Properties C87, C88 and C89: the client knows which window has the focus.  With their
    assumptions and a non-trivial instance beside each. *)
From Coq Require Import String Ascii List Arith NArith ZArith Bool Lia.
From Verif Require Import Base Key Text KeyNames Match ParseSeq Stage Config MultiStage Replay StageProperties
  Serial Client ClientSpec ClientProofs ClientContexts ClientProperties
  Focus FocusSpec FocusProofs FocusClient FocusRun.
Import ListNotations.
Local Open Scope N_scope.

(** ** A desktop for the examples *)

(** The compositor announces a window completely. *)
Definition tell (id address : N) (states : list N) : list wstep :=
  map SDesk [ASendWindow id address; ASendTitle id; ASendApp id; ASendState id states; ASendDone id].
(** Two windows; the second one gets the focus.  The client asks before it is connected, as it
    does when it sends its configuration (ClientState.cpp:134-150). *)
Definition two_windows : list wstep :=
  [SUpdate; SConnect;
   SDesk (AOpen 1 (T "shell") (T "Term")); SDesk (AOpen 2 (T "my doc") (T "Editor")); SDesk (AFocus (Some 1))] ++
  tell 1 100 [0; 2] ++ [SDesk (AFocus (Some 2))] ++ tell 2 200 [2] ++
  map SDesk [ASendState 1 [0]; ASendDone 1].
Definition runs_to (l : list wstep) : option (list (option window) * focus * desk) :=
  match played l (Desk [] None) with
  | Some (fs, dk) => match focus_run fs new_focus with Some (ws, f) => Some (ws, f, dk) | None => None end
  | None => None
  end.
Definition knows (l : list wstep) : option window := option_map (fun r => fo_data (snd (fst r))) (runs_to l).

(** ** C87 The client knows the focused window *)

(** On a compositor with the wlroots protocol: however the changes of windows are announced,
    at each update the client knows the focused window, if that was announced and is the only
    source of information. *)
Theorem C87_wlroots_partial : forall l fs dk id x,
  played (l ++ [SUpdate]) (Desk [] None) = Some (fs, dk) -> connected l false = true ->
  dk_focus dk = Some id -> win_of id (dk_windows dk) = Some x -> announced x = true ->
  exists ws f, focus_run fs new_focus = Some (ws, f) /\ fo_data f = Win (dn_app x) (dn_title x) [].
Proof. exact wlr_knows. Qed.
Print Assumptions C87_wlroots_partial.

Example C87_wlroots_case :
  match runs_to (two_windows ++ [SUpdate]) with
  | Some (ws, f, dk) =>
      ws = [None; Some (Win (T "Editor") (T "my doc") [])] /\
      dk_focus dk = Some 2 /\ option_map announced (win_of 2 (dk_windows dk)) = Some true /\
      fo_data f = Win (T "Editor") (T "my doc") []
  | None => False
  end /\ connected two_windows false = true.
Proof. vm_compute. auto. Qed.
(** The title of a window in the background does not matter, that of the focused one does. *)
Example C87_wlroots_titles :
  knows (two_windows ++ map SDesk [ATitle 1 (T "top"); ASendTitle 1; ASendDone 1] ++ [SUpdate])
  = Some (Win (T "Editor") (T "my doc") []) /\
  knows (two_windows ++ map SDesk [ATitle 2 (T "other"); ASendTitle 2; ASendDone 2] ++ [SUpdate])
  = Some (Win (T "Editor") (T "other") []).
Proof. vm_compute. auto. Qed.

(** Missing: when no window has the focus the client still takes the last one for focused. *)
Theorem C87_unfocused_refuted : exists l fs dk ws f,
  played (l ++ [SUpdate]) (Desk [] None) = Some (fs, dk) /\ connected l false = true /\
  dk_focus dk = None /\ forallb announced (dk_windows dk) = true /\
  focus_run fs new_focus = Some (ws, f) /\ fo_data f <> Win [] [] [].
Proof.
  set (l := two_windows ++ map SDesk [AFocus None; ASendState 2 []; ASendDone 2]).
  destruct (played (l ++ [SUpdate]) (Desk [] None)) as [[fs dk]|] eqn:P; [|vm_compute in P; discriminate].
  destruct (focus_run fs new_focus) as [[ws f]|] eqn:R.
  - exists l, fs, dk, ws, f. vm_compute in P. injection P as <- <-. vm_compute in R. injection R as <- <-.
    repeat split. discriminate.
  - vm_compute in P. injection P as <- <-. vm_compute in R. discriminate.
Qed.
Print Assumptions C87_unfocused_refuted.

(** And it takes a window for focused which never was, when its object is stored where that of
    the last focused one was. *)
Theorem C87_reused_refuted : exists l fs dk ws f x,
  played (l ++ [SUpdate]) (Desk [] None) = Some (fs, dk) /\ connected l false = true /\
  ~ In (SDesk (AFocus (Some 3))) l /\ forallb announced (dk_windows dk) = true /\
  focus_run fs new_focus = Some (ws, f) /\
  win_of 3 (dk_windows dk) = Some x /\ fo_data f = Win (dn_app x) (dn_title x) [].
Proof.
  set (l := two_windows ++ [SDesk (AClose 2); SDesk (AOpen 3 (T "1 new message") (T "Mail"))] ++ tell 3 200 []).
  destruct (played (l ++ [SUpdate]) (Desk [] None)) as [[fs dk]|] eqn:P; [|vm_compute in P; discriminate].
  destruct (focus_run fs new_focus) as [[ws f]|] eqn:R;
    [|vm_compute in P; injection P as <- <-; vm_compute in R; discriminate].
  destruct (win_of 3 (dk_windows dk)) as [x|] eqn:W;
    [|vm_compute in P; injection P as <- <-; vm_compute in W; discriminate].
  exists l, fs, dk, ws, f, x.
  vm_compute in P. injection P as <- <-. vm_compute in R. injection R as <- <-. vm_compute in W. injection W as <-.
  split; [reflexivity|]. split; [reflexivity|]. split.
  - vm_compute. intro H. repeat (destruct H as [H|H]; [discriminate|]). exact H.
  - repeat split.
Qed.
Print Assumptions C87_reused_refuted.

(** On X11: at each update the client knows the focused window if that has a class and a
    title. *)
Theorem C87_x11_partial : forall class pid exe l x,
  forallb x_fine (l ++ [XAsk x]) = true ->
  xd_focus x <> 0 -> class (xd_focus x) <> [] -> xd_title x (xd_focus x) <> [] ->
  exists ws f, focus_run (map (x_fstep class pid exe) (XConnect :: l ++ [XAsk x])) new_focus = Some (ws, f) /\
    fo_data f = Win (class (xd_focus x)) (xd_title x (xd_focus x)) (x_path pid exe (xd_focus x)).
Proof. exact x_knows. Qed.
Print Assumptions C87_x11_partial.

Definition x_class (w : N) : text := if w =? 5 then T "term" else if w =? 6 then T "editor" else [].
Definition x_pid (w : N) : option N := if w =? 5 then Some 1000 else None.
Definition x_exe (p : N) : text := if p =? 1000 then T "/usr/bin/term" else [].
Definition x_asked (l : list xstep) : option window :=
  option_map (fun r => fo_data (snd r)) (focus_run (map (x_fstep x_class x_pid x_exe) (XConnect :: l)) new_focus).
Definition x_titles (w : N) : text := if w =? 5 then T "shell" else if w =? 6 then T "my doc" else [].
Example C87_x11_case :
  x_asked [XAsk (XD 6 x_titles); XAsk (XD 5 x_titles)] = Some (Win (T "term") (T "shell") (T "/usr/bin/term")) /\
  x_asked [XAsk (XD 5 x_titles); XConnect; XAsk (XD 6 x_titles)] = Some (Win (T "editor") (T "my doc") []) /\
  forallb x_fine [XAsk (XD 5 x_titles); XConnect; XAsk (XD 6 x_titles)] = true.
Proof. vm_compute. auto. Qed.

(** Missing: a focused window without a title is not noticed, the contexts stay those of
    the window which was focused before. *)
Theorem C87_untitled_refuted : exists l x ws f,
  forallb x_fine (l ++ [XAsk x]) = true /\ xd_focus x <> 0 /\
  focus_run (map (x_fstep x_class x_pid x_exe) (XConnect :: l ++ [XAsk x])) new_focus = Some (ws, f) /\
  w_class (fo_data f) <> x_class (xd_focus x).
Proof.
  exists [XAsk (XD 5 x_titles)], (XD 6 (fun w => if w =? 5 then T "shell" else [])).
  eexists. eexists. split; [reflexivity|]. split; [discriminate|]. split; [vm_compute; reflexivity|]. discriminate.
Qed.
Print Assumptions C87_untitled_refuted.

(** Missing: with more than one source.  The X server and the compositor tell the same window,
    but the client forgets its path (and takes the class from the other one). *)
Definition an_x_window : list fstep :=
  [FInit true false true;
   FEvents [WToplevel 1 100; WTitle 1 (T "shell"); WApp 1 (T "Term"); WState 1 [2]; WDone 1];
   FUpdate (x_answers x_class x_pid x_exe (XD 5 x_titles)) 0].
Theorem C87_path_refuted : exists l ws f ws' f',
  Forall (fun s => match s with FUpdate a _ => a = x_answers x_class x_pid x_exe (XD 5 x_titles) | _ => True end) l /\
  focus_run l new_focus = Some (ws, f) /\ fo_data f = Win (T "term") (T "shell") (T "/usr/bin/term") /\
  focus_run [FUpdate (x_answers x_class x_pid x_exe (XD 5 x_titles)) 0] f = Some (ws', f') /\
  w_path (fo_data f') = [] /\ w_title (fo_data f') = T "shell".
Proof.
  exists an_x_window.
  destruct (focus_run an_x_window new_focus) as [[ws f]|] eqn:R; [|vm_compute in R; discriminate].
  destruct (focus_run [FUpdate (x_answers x_class x_pid x_exe (XD 5 x_titles)) 0] f) as [[ws' f']|] eqn:R';
    [|vm_compute in R; injection R as <- <-; vm_compute in R'; discriminate].
  exists ws, f, ws', f'. split; [repeat constructor|]. split; [reflexivity|].
  vm_compute in R. injection R as <- <-. split; [reflexivity|]. split; [exact R'|].
  vm_compute in R'. injection R' as <- <-. split; reflexivity.
Qed.
Print Assumptions C87_path_refuted.

(** On the bus: two updates per call at most, then the client knows the window it was told
    last. *)
Theorem C87_bus_partial : forall l ns,
  (2 * length (flat_map b_calls l) <= length ns)%nat ->
  exists ws f, focus_run (FInit false true false :: flat_map b_step (l ++ map BUpdate ns)) new_focus = Some (ws, f) /\
    fo_data f = last_call (flat_map b_calls l) (Win [] [] []).
Proof. exact b_knows. Qed.
Print Assumptions C87_bus_partial.

Definition on_bus (l : list bstep) : option (list (option window)) :=
  option_map fst (focus_run (FInit false true false :: flat_map b_step l) new_focus).
Definition term : dwindow := DW 1 (T "shell") (T "Term").
Definition term2 : dwindow := DW 1 (T "top") (T "Term").
Definition editor : dwindow := DW 2 (T "my doc") (T "Editor").
Example C87_bus_case :
  let calls := flat_map kwin_focus [Some term; Some editor; None; Some term2] in
  on_bus [BCalls [DOther]; BUpdate 0; BCalls calls; BUpdate 0; BUpdate 1; BUpdate 0; BReconnect; BUpdate 0; BUpdate 5; BUpdate 0; BUpdate 0]
  = Some [None; None; None; Some (Win (T "Term") (T "shell") []); Some (Win (T "Editor") (T "my doc") []); None;
          Some (Win [] [] []); Some (Win (T "Term") (T "top") [])].
Proof. vm_compute. reflexivity. Qed.

(** With the scripts: the client knows the window which has the focus, on KDE always, on GNOME as
    long as the focus does not stay within an application. *)
Lemma gnome_last l : forall old d, d = as_told (T "root") old -> other_apps old l ->
  last_call (each_change gnome_focus old l) d = as_told (T "root") (last l old).
Proof.
  induction l as [|w r IH]; intros old d -> H; [reflexivity|].
  cbn [each_change]. destruct H as [H HR]. unfold last_call. rewrite fold_left_app.
  fold (last_call (gnome_focus old w) (as_told (T "root") old)).
  fold (last_call (each_change gnome_focus w r) (last_call (gnome_focus old w) (as_told (T "root") old))).
  assert (K : last_call (gnome_focus old w) (as_told (T "root") old) = as_told (T "root") w).
  { unfold gnome_focus. destruct old as [a|], w as [b|]; try reflexivity.
    destruct H as [->|H]; [rewrite N.eqb_refl; reflexivity|].
    apply N.eqb_neq in H. rewrite H. reflexivity. }
  rewrite (IH w _ K HR). destruct r as [|x r]; [reflexivity|].
  replace (last (w :: x :: r) old) with (last (x :: r) old) by reflexivity.
  f_equal. clear. revert x. induction r as [|y r IH]; intros x; [reflexivity|]. apply (IH y).
Qed.
Lemma kwin_last l : forall old d,
  last_call (each_change (fun _ w => kwin_focus w) old l) d = match l with [] => d | _ => as_told [] (last l old) end.
Proof.
  induction l as [|w r IH]; intros old d; [reflexivity|].
  cbn [each_change]. unfold last_call. rewrite fold_left_app.
  fold (last_call (each_change (fun _ w => kwin_focus w) w r) (last_call (kwin_focus w) d)).
  rewrite IH. destruct r as [|x r].
  - destruct w; reflexivity.
  - replace (last (w :: x :: r) old) with (last (x :: r) old) by reflexivity.
    f_equal. clear. revert x. induction r as [|y r IH]; intros x; [reflexivity|]. apply (IH y).
Qed.
Theorem C87_scripts_partial : forall w l ns,
  (2 * length (w :: l) <= length ns)%nat ->
  (exists ws f, focus_run (FInit false true false :: flat_map b_step
      ([BCalls (each_change (fun _ w => kwin_focus w) None (w :: l))] ++ map BUpdate ns)) new_focus = Some (ws, f) /\
    fo_data f = as_told [] (last (w :: l) None)) /\
  (w <> None -> other_apps w l ->
   exists ws f, focus_run (FInit false true false :: flat_map b_step
      ([BCalls (each_change gnome_focus None (w :: l))] ++ map BUpdate ns)) new_focus = Some (ws, f) /\
    fo_data f = as_told (T "root") (last (w :: l) None)).
Proof.
  intros w l ns L. split.
  - destruct (b_knows [BCalls (each_change (fun _ w => kwin_focus w) None (w :: l))] ns) as (ws & f & R & D).
    { cbn [flat_map b_calls]. rewrite app_nil_r.
      assert (K : forall h o, length (each_change (fun _ w => kwin_focus w) o h) = length h).
      { induction h as [|x h IH]; intros o; [reflexivity|]. cbn. f_equal. apply IH. }
      rewrite K. exact L. }
    exists ws, f. split; [exact R|]. rewrite D. cbn [flat_map b_calls]. rewrite app_nil_r.
    apply (kwin_last (w :: l)).
  - intros NE H.
    destruct (b_knows [BCalls (each_change gnome_focus None (w :: l))] ns) as (ws & f & R & D).
    { cbn [flat_map b_calls]. rewrite app_nil_r.
      assert (K : forall h o, (length (each_change gnome_focus o h) <= length h)%nat).
      { induction h as [|x h IH]; intros o; [constructor|]. cbn [each_change length]. rewrite app_length.
        specialize (IH x).
        assert (O : (length (gnome_focus o x) <= 1)%nat).
        { unfold gnome_focus. destruct o as [a|], x as [b|]; cbn; try lia. destruct (dw_app a =? dw_app b); cbn; lia. }
        lia. }
      specialize (K (w :: l) None). lia. }
    exists ws, f. split; [exact R|]. rewrite D. cbn [flat_map b_calls]. rewrite app_nil_r.
    destruct w as [w|]; [|congruence]. cbn [each_change]. unfold last_call. rewrite fold_left_app.
    change (last_call (each_change gnome_focus (Some w) l) (as_told (T "root") (Some w)) = as_told (T "root") (last (Some w :: l) None)).
    rewrite (gnome_last l (Some w) _ eq_refl H). destruct l as [|x l]; [reflexivity|].
    replace (last (Some w :: x :: l) None) with (last (x :: l) None) by reflexivity.
    f_equal. clear. revert x. induction l as [|y r IH]; intros x; [reflexivity|]. apply (IH y).
Qed.
Print Assumptions C87_scripts_partial.
Example C87_scripts_case :
  other_apps (Some term) [Some editor; None; Some term2; Some editor; None] /\
  flat_map (fun m => match m with DFocus t _ => [t] | _ => [] end)
    (each_change gnome_focus None [Some term; Some editor; None; Some term2; Some editor; None]) =
  [T "shell"; T "my doc"; T ""; T "top"; T "my doc"; T ""].
Proof. split; [cbn; repeat split; right; discriminate|reflexivity]. Qed.

(** Missing: the extension for GNOME only tells when another application gets the focus. *)
Theorem C87_gnome_refuted : exists a b c, b <> c /\ dw_caption b <> dw_caption c /\
  forall ns, (6 <= length ns)%nat ->
  exists ws f,
    focus_run (FInit false true false :: flat_map b_step
      ([BCalls (gnome_focus None (Some a) ++ gnome_focus (Some a) (Some b) ++ gnome_focus (Some b) (Some c))] ++
       map BUpdate ns)) new_focus = Some (ws, f) /\
    w_title (fo_data f) <> dw_caption c.
Proof.
  exists editor, term, term2. split; [discriminate|]. split; [discriminate|]. intros ns L.
  destruct (b_knows [BCalls (gnome_focus None (Some editor) ++ gnome_focus (Some editor) (Some term) ++ gnome_focus (Some term) (Some term2))] ns) as [ws [f [R D]]].
  { refine (Nat.le_trans _ _ _ _ L). vm_compute. repeat constructor. }
  exists ws, f. split; [exact R|]. rewrite D. discriminate.
Qed.
Print Assumptions C87_gnome_refuted.

(** All of it: the contexts which are active on the server are those which accept the
    window which has the focus on the desktop.  [focus] is what the updates of the client
    gave. *)
Theorem C87_contexts_partial : forall search typer key_name system sent focus disk name l steps fs dk id x ws f,
  (forall n, fs_parse (disk n) [] = None) -> name <> [] -> fs_time (disk 0%nat) name <> (-1)%Z ->
  let c := client_main search typer key_name system sent focus disk name l in
  switches_work (cl_trace c) -> cl_broken c = false ->
  played (steps ++ [SUpdate]) (Desk [] None) = Some (fs, dk) -> connected steps false = true ->
  focus_run fs new_focus = Some (ws, f) -> map focus (seq 0 (cl_focus c)) = ws ->
  dk_focus dk = Some id -> win_of id (dk_windows dk) = Some x -> announced x = true ->
  exists contexts, held (cl_trace c) = (Some (cl_config c), contexts) /\
    if active_of (cl_trace c) then lists_contexts search (Win (dn_app x) (dn_title x) []) (cl_config c) contexts
    else contexts = [].
Proof.
  intros search typer key_name system sent focus disk name l steps fs dk id x ws f NN NE TM c SW BR P C R TO F W A.
  destruct (C57_partial search typer key_name system sent focus disk name l NN NE TM SW BR) as [contexts [H1 H2]].
  exists contexts. split; [exact H1|].
  destruct (wlr_knows _ _ _ _ _ P C F W A) as [ws' [f' [R' D]]]. rewrite R in R'. injection R' as <- <-.
  pose proof (run_shown _ _ _ _ R) as SH. cbn [new_focus fo_data] in SH.
  pose proof (main_seen search typer key_name system sent focus disk name l) as SE. unfold seen, told in SE.
  fold c in SE. rewrite TO, <- SH, D in SE.
  destruct (good_main search typer key_name system sent focus disk NN name l NE TM SW) as [GX _].
  unfold right_contexts in H2. fold c in GX, H2.
  destruct (active_of (cl_trace c)); [|exact H2].
  rewrite <- SE, <- (x_win _ _ GX). exact H2.
Qed.
Print Assumptions C87_contexts_partial.

(** The file of ClientProperties with contexts for the class Term and for titles with doc. *)
Definition desktop_focus (n : nat) : option window :=
  match runs_to (two_windows ++ [SUpdate]) with Some (ws, _, _) => nth n ws None | None => None end.
Definition on_desktop (l : list cstep) : client :=
  client_main find_sub no_typer no_names (T "Linux") (fun _ => true) desktop_focus always (T "a") l.
Example C87_contexts_case :
  let c := on_desktop [one_turn [] None nothing] in
  cl_focus c = 2%nat /\ map desktop_focus (seq 0 2) = [None; Some (Win (T "Editor") (T "my doc") [])] /\
  cl_broken c = false /\ active_of (cl_trace c) = true /\
  List.filter (fun e => match e with FSent (SActive _) => true | _ => false end) (cl_trace c)
  = [FSent (SActive [0]%Z); FSent (SActive [0; 2]%Z)].
Proof. vm_compute. auto 6. Qed.

(** ** C88 Reading the properties of windows stays within the buffers *)

(** Provided that each property which is there has a value of the expected type. *)
Theorem C88_in_range_partial : forall l f, forallb in_range l = true -> focus_run l f <> None.
Proof. exact run_in_range. Qed.
Print Assumptions C88_in_range_partial.
Example C88_in_range_case : forallb in_range an_x_window = true /\
  option_map fst (focus_run an_x_window new_focus) = Some [Some (Win (T "term") (T "shell") (T "/usr/bin/term"))].
Proof. vm_compute. auto. Qed.

(** Missing: an application which gives its window an empty _NET_WM_PID makes the client read
    eight bytes out of a buffer of one. *)
Theorem C88_out_of_range_refuted : exists l, focus_run l new_focus = None.
Proof.
  exists [FInit true false false;
          FUpdate (XA (Some [5]) (Some (map N_of_ascii (T "shell"))) (Some (T "term")) (Some []) x_exe) 0].
  vm_compute. reflexivity.
Qed.
Print Assumptions C88_out_of_range_refuted.

(** ** C89 Focus changes are seen by the next update *)

(** True of the wlroots protocol and of X11 (C87_wlroots_partial, C87_x11_partial).  On the bus an
    update handles one call at most: after fewer updates than there were calls the client takes
    a window for focused which was told before the last one. *)
Theorem C89_bus_behind : forall l calls ns,
  (length ns < length calls)%nat -> flat_map b_calls l = [] ->
  exists ws f k,
    focus_run (FInit false true false :: flat_map b_step (l ++ [BCalls calls] ++ map BUpdate ns)) new_focus = Some (ws, f) /\
    (k <= length ns)%nat /\ fo_data f = last_call (firstn k calls) (Win [] [] []).
Proof. exact b_lags. Qed.
Print Assumptions C89_bus_behind.
Example C89_bus_behind_case :
  on_bus ([BCalls (flat_map kwin_focus [Some term; Some editor; Some term2])] ++ map BUpdate [2; 0]%nat)
  = Some [None; Some (Win (T "Term") (T "shell") [])].
Proof. vm_compute. reflexivity. Qed.

(** So no number of updates is enough: the user moves the focus often enough (the calls wait
    while the client is not active, when it does not update) and the client is not up to date. *)
Theorem C89_late_refuted : forall n, exists old new, last_call old (Win [] [] []) <> last_call (old ++ new) (Win [] [] []) /\
  length new = 1%nat /\
  forall ns, length ns = n -> exists ws f,
    focus_run (FInit false true false :: flat_map b_step ([BCalls (old ++ new)] ++ map BUpdate ns)) new_focus = Some (ws, f) /\
    fo_data f <> last_call (old ++ new) (Win [] [] []).
Proof.
  intro n. set (t := T "shell"). set (c := T "Term").
  exists (repeat (DFocus t c) (S n)), [DFocus (T "my doc") (T "Editor")].
  assert (LC : forall m, last_call (repeat (DFocus t c) m) (Win [] [] []) = match m with O => Win [] [] [] | _ => Win c t [] end).
  { induction m as [|m IH]; [reflexivity|]. replace (S m) with (m + 1)%nat at 1 by lia.
    rewrite repeat_app, last_call_app. reflexivity. }
  split.
  - rewrite last_call_app, LC. discriminate.
  - split; [reflexivity|]. intros ns L.
    destruct (b_lags [] (repeat (DFocus t c) (S n) ++ [DFocus (T "my doc") (T "Editor")]) ns) as [ws [f [k [R [K D]]]]].
    + rewrite app_length, repeat_length. cbn [length]. lia.
    + reflexivity.
    + exists ws, f. split; [exact R|]. rewrite D, firstn_app, repeat_length.
      replace (k - S n)%nat with 0%nat by lia. rewrite firstn_O, app_nil_r.
      assert (FR : firstn k (repeat (DFocus t c) (S n)) = repeat (DFocus t c) k).
      { replace (S n) with (k + (S n - k))%nat by lia. rewrite repeat_app, firstn_app, repeat_length, Nat.sub_diag, firstn_O, app_nil_r.
        apply firstn_all2. rewrite repeat_length. lia. }
      rewrite FR, LC, last_call_app. cbn. destruct k; discriminate.
Qed.
Print Assumptions C89_late_refuted.
