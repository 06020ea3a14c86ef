(** Runs of the detection of the focused window (C87, C88, C89). *)
From Coq Require Import String Ascii List Arith NArith ZArith Bool Lia.
From Verif Require Import Base Key Text KeyNames ParseSeq Stage Config Serial Client ClientSpec ClientProofs
  ClientContexts Focus FocusSpec FocusProofs FocusClient.
Import ListNotations.
Local Open Scope N_scope.

Lemma focus_run_app l : forall m f,
  focus_run (l ++ m) f =
  match focus_run l f with
  | None => None
  | Some (ws, f') => match focus_run m f' with Some (vs, f'') => Some (ws ++ vs, f'') | None => None end
  end.
Proof.
  induction l as [|s r IH]; intros m f; cbn [app focus_run].
  - destruct (focus_run m f) as [[vs f'']|]; reflexivity.
  - destruct (focus_step s f) as [[o f']|]; [|reflexivity]. rewrite IH.
    destruct (focus_run r f') as [[ws f'']|]; [|reflexivity].
    destruct (focus_run m f'') as [[vs f3]|]; [|reflexivity].
    destruct o as [[|]|]; reflexivity.
Qed.

(** ** What changed was reported *)

Lemma wlr_event_flag e w d : let s := wlr_event e (w, d) in
  (wl_updated w = true -> wl_updated (fst s) = true) /\ (snd s = d \/ wl_updated (fst s) = true).
Proof.
  destruct e as [h a|h t|h t|h l|h|h]; cbn; auto.
  - destruct (top_of h (wl_tops w)); cbn; auto.
  - destruct (top_of h (wl_tops w)); cbn; auto. destruct (_ && _); cbn; auto.
Qed.
Lemma wlr_events_flag es : forall w d, let s := wlr_events es (w, d) in
  (wl_updated w = true -> wl_updated (fst s) = true) /\ (snd s = d \/ wl_updated (fst s) = true).
Proof.
  induction es as [|e r IH]; intros w d; [cbn; auto|]. unfold wlr_events in *. cbn [fold_left]. cbv zeta in *.
  pose proof (wlr_event_flag e w d) as H. cbv zeta in H. destruct (wlr_event e (w, d)) as [w1 d1].
  cbn [fst snd] in H. destruct H as [H1 H2]. specialize (IH w1 d1). cbv zeta in IH. destruct IH as [I1 I2].
  split; [auto|]. destruct H2 as [->|H2]; [exact I2|right; auto].
Qed.
Lemma x11_flag a k d r k' d' : x11_update a k d = Some (r, k', d') -> r = false -> d' = d.
Proof.
  unfold x11_update. destruct (get_focused_window a) as [w|]; [|discriminate]. cbv zeta.
  destruct (_ && _); [congruence|].
  destruct (get_window_class w a); [congruence|]. destruct (get_window_title w a); [congruence|].
  destruct (get_window_path w a); congruence.
Qed.
Lemma update_flag a n f r f' : update a n f = Some (r, f') -> r = false -> fo_data f' = fo_data f.
Proof.
  unfold update. intro U. destruct (update_x11 a f) as [[r1 f1]|] eqn:E1; [|discriminate].
  assert (D1 : r1 = false -> fo_data f1 = fo_data f).
  { unfold update_x11 in E1. destruct (fo_x11 f) as [k|]; [|congruence].
    destruct (x11_update a k (fo_data f)) as [[[r2 k2] d2]|] eqn:X; [|discriminate]. injection E1 as <- <-.
    exact (x11_flag _ _ _ _ _ _ X). }
  destruct r1; [congruence|]. specialize (D1 eq_refl). rewrite <- D1. clear E1 D1.
  destruct (update_dbus n f1) as [r2 f2] eqn:E2.
  assert (D2 : r2 = false -> fo_data f2 = fo_data f1).
  { unfold update_dbus in E2. destruct (fo_dbus f1) as [u|]; [|congruence].
    destruct (read_write_dispatch n (fo_queue f1) (fo_socket f1)) as [[m q] k].
    destruct m as [m|]; [destruct m; cbn in E2|]; injection E2 as <- <-; cbn; congruence. }
  destruct r2; [congruence|]. rewrite <- (D2 eq_refl). clear E2 D2. injection U as U. revert U.
  unfold update_wlr. destruct (fo_wlr f2) as [w|]; [|congruence].
  pose proof (wlr_events_flag (fo_wire f2) w (fo_data f2)) as F. cbv zeta in F.
  destruct (wlr_events (fo_wire f2) (w, fo_data f2)) as [w' d']. cbn [fst snd] in F.
  intros [= <- <-] R. destruct F as [_ [F|F]]; [exact F|congruence].
Qed.
Theorem run_shown l : forall f ws f', focus_run l f = Some (ws, f') ->
  fo_data f' = last_shown ws (fo_data f).
Proof.
  induction l as [|s r IH]; intros f ws f' H; cbn [focus_run] in H; [injection H as <- <-; reflexivity|].
  destruct (focus_step s f) as [[o f1]|] eqn:E; [|discriminate].
  destruct (focus_run r f1) as [[ws1 f2]|] eqn:R; [|discriminate]. injection H as <- <-.
  rewrite (IH _ _ _ R).
  destruct s as [x d w| |l|l|a n]; cbn [focus_step] in E; try (injection E as <- <-; reflexivity).
  destruct (update a n f) as [[b g]|] eqn:U; [|discriminate]. injection E as <- <-.
  destruct b; [reflexivity|]. cbn. rewrite (update_flag _ _ _ _ _ U eq_refl). reflexivity.
Qed.

(** ** wlroots *)

Definition G (dk : desk) (f : focus) : Prop :=
  fo_x11 f = None /\ fo_dbus f = None /\ w_path (fo_data f) = [] /\
  match fo_wlr f with
  | Some w => Inv dk (fst (wlr_events (fo_wire f) (w, fo_data f))) (snd (wlr_events (fo_wire f) (w, fo_data f)))
  | None => forall id, dk_focus dk = Some id -> win_of id (dk_windows dk) <> None
  end.

Lemma wlr_events_app a b s : wlr_events (a ++ b) s = wlr_events b (wlr_events a s).
Proof. apply fold_left_app. Qed.

(** Flags do not matter. *)
Lemma inv_flag dk w d b : Inv dk w d -> Inv dk (Wlr (wl_active w) (wl_tops w) b) d.
Proof. intros [A B C D]. constructor; assumption. Qed.

Lemma desk_live a dk es dk' : desk_do a dk = Some (es, dk') ->
  (forall id, dk_focus dk = Some id -> win_of id (dk_windows dk) <> None) ->
  forall id, dk_focus dk' = Some id -> win_of id (dk_windows dk') <> None.
Proof.
  intros D L id F.
  assert (ON : forall i g l, (forall w, dn_id (g w) = dn_id w) -> win_of id l <> None -> win_of id (on_win i g l) <> None).
  { intros i g l Q H. rewrite win_of_on by exact Q. destruct (id =? i); [|exact H].
    destruct (win_of id l); [discriminate|exact H]. }
  destruct a as [i t ap|i|i t|i t|o|i ad|i|i|i l|i]; cbn [desk_do] in D.
  - destruct (win_of i _) eqn:W; [discriminate|]. injection D as <- <-. cbn in *. rewrite win_of_app.
    specialize (L id F). destruct (win_of id (dk_windows dk)); [discriminate|contradiction].
  - destruct (win_of i _) eqn:W; [|discriminate]. injection D as <- <-. cbn in *. rewrite win_of_filter.
    unfold has_focus in F. destruct (dk_focus dk) as [g|] eqn:E; [|discriminate].
    destruct (N.eqb_spec g i); [discriminate|]. injection F as <-.
    destruct (N.eqb_spec g i); [contradiction|]. exact (L g eq_refl).
  - destruct (win_of i _) eqn:W; [|discriminate]. injection D as <- <-. cbn in *. apply ON; auto.
  - destruct (win_of i _) eqn:W; [|discriminate]. injection D as <- <-. cbn in *. apply ON; auto.
  - destruct (match o with Some id => _ | None => true end) eqn:O in D; [|discriminate]. injection D as <- <-.
    cbn in *. subst o. rewrite win_of_map by (intro z; destruct (_ || _); reflexivity).
    destruct (win_of id (dk_windows dk)); discriminate.
  - destruct (win_of i _) eqn:W; [|discriminate]. destruct (_ || _); [discriminate|]. injection D as <- <-. cbn in *. apply ON; auto.
  - destruct (win_of i _) eqn:W; [|discriminate]. destruct (dn_known _); [|discriminate]. injection D as <- <-. cbn in *. apply ON; auto.
  - destruct (win_of i _) eqn:W; [|discriminate]. destruct (dn_known _); [|discriminate]. injection D as <- <-. cbn in *. apply ON; auto.
  - destruct (win_of i _) eqn:W; [|discriminate]. destruct (_ && _); [|discriminate]. injection D as <- <-. cbn in *. apply ON; auto.
  - destruct (win_of i _) eqn:W; [|discriminate]. destruct (dn_known _); [|discriminate]. injection D as <- <-. cbn in *. apply ON; auto.
Qed.

Lemma inv_live dk w d : Inv dk w d -> forall id, dk_focus dk = Some id -> win_of id (dk_windows dk) <> None.
Proof. intros V id F. destruct (i_focus _ _ _ V id F) as [x [X _]]. congruence. Qed.

Lemma forgotten_live dk : (forall id, dk_focus dk = Some id -> win_of id (dk_windows dk) <> None) ->
  forall id, dk_focus (forgotten dk) = Some id -> win_of id (dk_windows (forgotten dk)) <> None.
Proof.
  intros L id F. cbn in *. rewrite win_of_map by reflexivity. specialize (L id F).
  destruct (win_of id (dk_windows dk)); [discriminate|contradiction].
Qed.
Lemma forgotten_inv dk d : (forall id, dk_focus dk = Some id -> win_of id (dk_windows dk) <> None) ->
  w_path d = [] -> Inv (forgotten dk) new_wlr d.
Proof.
  intros L P. constructor; cbn [forgotten dk_windows dk_focus].
  - intro h. rewrite win_of_map by reflexivity. destruct (win_of h (dk_windows dk)); reflexivity.
  - intros h k x y. rewrite !win_of_map by reflexivity.
    destruct (win_of h (dk_windows dk)); [|discriminate]. cbn. intros [= <-] _. discriminate.
  - intros f F. rewrite win_of_map by reflexivity. specialize (L f F).
    destruct (win_of f (dk_windows dk)); [|contradiction]. cbn. eexists. split; [reflexivity|]. discriminate.
  - exact P.
Qed.
Lemma G_live dk f : G dk f -> forall id, dk_focus dk = Some id -> win_of id (dk_windows dk) <> None.
Proof.
  intros [_ [_ [_ H]]]. destruct (fo_wlr f) as [w|]; [|exact H]. exact (inv_live _ _ _ H).
Qed.

Lemma played_G l : forall dk fs dk' f, played l dk = Some (fs, dk') -> G dk f ->
  exists ws f', focus_run fs f = Some (ws, f') /\ G dk' f' /\
    connected l (match fo_wlr f with Some _ => true | None => false end) =
      match fo_wlr f' with Some _ => true | None => false end.
Proof.
  induction l as [|s r IH]; intros dk fs dk' f P H; cbn [played] in P.
  - injection P as <- <-. exists [], f. auto.
  - destruct s as [a| | |].
    + destruct (desk_do a dk) as [[es dk1]|] eqn:D; [|discriminate].
      destruct (played r dk1) as [[fs1 dk2]|] eqn:R; [|discriminate]. injection P as <- <-.
      pose proof H as [X [B [P1 V]]].
      set (f1 := Fo (fo_data f) (fo_x11 f) (fo_dbus f) (fo_wlr f) (fo_queue f) (fo_socket f)
                   (match fo_wlr f with Some _ => fo_wire f ++ es | None => [] end)).
      assert (H1 : G dk1 f1).
      { split; [exact X|]. split; [exact B|]. split; [exact P1|]. unfold f1. cbn [fo_wlr fo_wire fo_data].
        destruct (fo_wlr f) as [w|].
        - rewrite wlr_events_app. destruct (wlr_events (fo_wire f) (w, fo_data f)) as [w' d'].
          eapply desk_step_inv; eassumption.
        - eapply desk_live; eassumption. }
      destruct (IH dk1 fs1 dk2 f1 R H1) as [ws [f' [Q [H2 C]]]].
      exists ws, f'. cbn [focus_run focus_step]. fold f1. rewrite Q. split; [reflexivity|]. split; [exact H2|].
      cbn [connected]. exact C.
    + destruct (played r (forgotten dk)) as [[fs1 dk2]|] eqn:R; [|discriminate]. injection P as <- <-.
      set (f1 := initialize false false true f).
      assert (H1 : G (forgotten dk) f1).
      { pose proof H as [X [B [P1 V]]]. split; [reflexivity|]. split; [reflexivity|]. split; [exact P1|]. cbn.
        apply forgotten_inv; [exact (G_live _ _ H)|exact P1]. }
      destruct (IH _ fs1 dk2 f1 R H1) as [ws [f' [Q [H2 C]]]].
      exists ws, f'. cbn [focus_run focus_step]. fold f1. rewrite Q. auto.
    + destruct (played r (forgotten dk)) as [[fs1 dk2]|] eqn:R; [|discriminate]. injection P as <- <-.
      set (f1 := shutdown f).
      assert (H1 : G (forgotten dk) f1).
      { pose proof H as [X [B [P1 V]]]. split; [reflexivity|]. split; [reflexivity|]. split; [exact P1|]. cbn [f1 shutdown fo_wlr].
        apply forgotten_live. exact (G_live _ _ H). }
      destruct (IH _ fs1 dk2 f1 R H1) as [ws [f' [Q [H2 C]]]].
      exists ws, f'. cbn [focus_run focus_step]. fold f1. rewrite Q. auto.
    + destruct (played r dk) as [[fs1 dk2]|] eqn:R; [|discriminate]. injection P as <- <-.
      pose proof H as [X [B [P1 V]]].
      assert (U : exists b f1, update (XA None None None None (fun _ => [])) 0 f = Some (b, f1) /\ G dk f1 /\
                 match fo_wlr f1 with Some _ => true | None => false end = match fo_wlr f with Some _ => true | None => false end).
      { unfold update, update_x11, update_dbus. rewrite X, B. unfold update_wlr.
        destruct (fo_wlr f) as [w|] eqn:W.
        - destruct (wlr_events (fo_wire f) (w, fo_data f)) as [w' d'] eqn:E. cbn [fst snd] in V.
          eexists. eexists. split; [reflexivity|]. split; [|reflexivity].
          split; [exact X|]. split; [exact B|]. split; [exact (i_path _ _ _ V)|]. cbn. apply inv_flag. exact V.
        - exists false, f. rewrite W. split; [reflexivity|]. auto. }
      destruct U as [b [f1 [U [H1 CW]]]].
      destruct (IH _ fs1 dk2 f1 R H1) as [ws [f' [Q [H2 C]]]].
      cbn [focus_run focus_step]. rewrite U, Q. eexists. exists f'. split; [reflexivity|].
      split; [exact H2|]. cbn [connected]. rewrite <- CW. exact C.
Qed.

Lemma played_app l : forall m dk, played (l ++ m) dk =
  match played l dk with
  | None => None
  | Some (fs, d) => match played m d with Some (gs, d') => Some (fs ++ gs, d') | None => None end
  end.
Proof.
  induction l as [|s r IH]; intros m dk; cbn [app played].
  - destruct (played m dk) as [[gs d']|]; reflexivity.
  - destruct s as [a| | |]; [destruct (desk_do a dk) as [[es d1]|]; [|reflexivity]| | |]; rewrite IH;
      (match goal with |- context [played r ?d] => destruct (played r d) as [[fs d2]|]; [|reflexivity] end);
      destruct (played m d2) as [[gs d3]|]; reflexivity.
Qed.

Theorem wlr_knows l fs dk id x :
  played (l ++ [SUpdate]) (Desk [] None) = Some (fs, dk) -> connected l false = true ->
  dk_focus dk = Some id -> win_of id (dk_windows dk) = Some x -> announced x = true ->
  exists ws f, focus_run fs new_focus = Some (ws, f) /\ fo_data f = Win (dn_app x) (dn_title x) [].
Proof.
  intros P C F W A. rewrite played_app in P.
  destruct (played l (Desk [] None)) as [[fs1 dk1]|] eqn:P1; [|discriminate]. cbn [played] in P.
  injection P as <- <-.
  assert (G0 : G (Desk [] None) new_focus) by (repeat split; discriminate).
  destruct (played_G _ _ _ _ _ P1 G0) as [ws1 [f1 [R1 [G1 C1]]]].
  assert (P2 : played [SUpdate] dk1 = Some ([FUpdate (XA None None None None (fun _ => [])) 0], dk1)) by reflexivity.
  destruct (played_G _ _ _ _ _ P2 G1) as [ws2 [f2 [R2 [G2 C2]]]].
  rewrite focus_run_app, R1, R2. exists (ws1 ++ ws2), f2. split; [reflexivity|].
  assert (WR : fo_wire f2 = []).
  { cbn [focus_run focus_step] in R2. unfold update, update_x11, update_dbus in R2.
    destruct G1 as [X1 [B1 _]]. rewrite X1, B1 in R2. unfold update_wlr in R2.
    change (match fo_wlr new_focus with Some _ => true | None => false end) with false in C1. rewrite C in C1.
    destruct (fo_wlr f1) as [w|] eqn:W1; [|discriminate].
    destruct (wlr_events (fo_wire f1) (w, fo_data f1)). injection R2 as <- <-. reflexivity. }
  change (match fo_wlr new_focus with Some _ => true | None => false end) with false in C1. rewrite C in C1.
  cbn [connected] in C2. rewrite <- C1 in C2.
  destruct G2 as [_ [_ [PA V]]]. destruct (fo_wlr f2) as [w|]; [|discriminate].
  rewrite WR in V. cbn in V. unfold announced in A.
  repeat (rewrite andb_true_iff in A). destruct A as [[[[K A1] A2] A3] A4].
  apply negb_true_iff in A1, A2, A3, A4.
  pose proof (i_tops _ _ _ V id) as T1. rewrite W, K in T1. destruct T1 as [o [T1 [T2 [T3 T4]]]].
  destruct (i_focus _ _ _ V id F) as [y [Y R]]. rewrite W in Y. injection Y as <-.
  destruct (R K A3) as [_ R3]. destruct (R3 A4 o T1) as [D1 D2].
  rewrite (T3 A1) in D1. rewrite (T4 A2) in D2. destruct (fo_data f2) as [c t p]. cbn in *. congruence.
Qed.

(** ** X11 *)

Lemma c_string_text t : forallb (fun c => negb (N_of_ascii c =? 0)) t = true -> c_string (map N_of_ascii t) = t.
Proof.
  induction t as [|c r IH]; [reflexivity|]. cbn. intro H. apply andb_true_iff in H. destruct H as [H1 H2].
  apply negb_true_iff in H1. rewrite H1, ascii_N_embedding, IH by exact H2. reflexivity.
Qed.
Section X.
Variable class : N -> text.
Variable pid : N -> option N.
Variable exe : N -> text.
Notation x_answers := (x_answers class pid exe).
Notation x_path := (x_path pid exe).

Definition x_fstep (s : xstep) : fstep :=
  match s with XConnect => FInit true false false | XAsk x => FUpdate (x_answers x) 0 end.

Lemma x_title x : x_storable (xd_title x (xd_focus x)) = true -> xd_focus x <> 0 ->
  get_window_title (xd_focus x) (x_answers x) = xd_title x (xd_focus x).
Proof.
  intros H Z. unfold get_window_title. destruct (N.eqb_spec (xd_focus x) 0); [contradiction|].
  unfold x_storable in H. apply andb_true_iff in H. destruct H as [H1 H2]. apply Nat.leb_le in H2.
  cbn [xa_name FocusSpec.x_answers]. destruct (xd_title x (xd_focus x)) as [|c r] eqn:E; [reflexivity|].
  unfold x_text. rewrite firstn_all2 by (rewrite map_length; exact H2). apply c_string_text. exact H1.
Qed.
Lemma x_title_none w x : xd_title x w = [] -> xd_focus x = w ->
  get_window_title w (x_answers x) = [].
Proof.
  intros H Z. unfold get_window_title. destruct (w =? 0); [reflexivity|]. cbn. rewrite Z, H. reflexivity.
Qed.

Definition GX (f : focus) : Prop :=
  fo_dbus f = None /\ fo_wlr f = None /\
  match fo_x11 f with
  | Some k => k = 0 \/ fo_data f = Win (class k) (w_title (fo_data f)) (x_path k)
  | None => True
  end.

Lemma x_ask x k d : (k = 0 \/ d = Win (class k) (w_title d) (x_path k)) ->
  x_storable (xd_title x (xd_focus x)) = true ->
  exists r k' d', x11_update (x_answers x) k d = Some (r, k', d') /\
    (k' = 0 \/ d' = Win (class k') (w_title d') (x_path k')) /\
    (xd_focus x <> 0 -> class (xd_focus x) <> [] -> xd_title x (xd_focus x) <> [] ->
     d' = Win (class (xd_focus x)) (xd_title x (xd_focus x)) (x_path (xd_focus x))).
Proof.
  intros H ST. unfold x11_update.
  assert (FW : get_focused_window (x_answers x) = Some (xd_focus x)).
  { unfold get_focused_window. cbn. destruct (N.eqb_spec (xd_focus x) 0) as [->|]; reflexivity. }
  rewrite FW. cbv zeta.
  destruct (N.eqb_spec (xd_focus x) 0) as [Z|NZ].
  - rewrite Z. unfold get_window_title, get_window_class. cbn [N.eqb].
    destruct (_ && _).
    + exists false, k, d. split; [reflexivity|]. split; [exact H|]. intro; contradiction.
    + exists false, k, d. split; [reflexivity|]. split; [exact H|]. intro; contradiction.
  - rewrite (x_title x ST NZ).
    destruct (N.eqb_spec (xd_focus x) k) as [E|E]; [destruct (text_eqb (xd_title x (xd_focus x)) (w_title d)) eqn:T|].
    + cbn [andb]. exists false, k, d. split; [reflexivity|]. split; [exact H|]. intros _ _ _.
      destruct H as [H|H]; [congruence|]. apply text_eqb_eq in T. rewrite T, E. exact H.
    + cbn [andb]. unfold get_window_class. destruct (N.eqb_spec (xd_focus x) 0); [contradiction|].
      cbn [xa_class FocusSpec.x_answers].
      destruct (class (xd_focus x)) as [|c cs] eqn:CL.
      * exists false, k, d. split; [reflexivity|]. split; [exact H|]. intros _ Q. contradiction.
      * destruct (xd_title x (xd_focus x)) as [|b bs] eqn:TT.
        -- exists false, k, d. split; [reflexivity|]. split; [exact H|]. intros _ _ Q. contradiction.
        -- unfold get_window_path, FocusSpec.x_path. destruct (N.eqb_spec (xd_focus x) 0); [contradiction|].
           cbn [xa_pid xa_exe FocusSpec.x_answers].
           destruct (pid (xd_focus x)) as [p|] eqn:PI; cbn [first_item]; eexists; eexists; eexists;
             (split; [reflexivity|]); (split; [right; cbn; rewrite CL, PI; reflexivity|]); reflexivity.
    + cbn [andb]. unfold get_window_class. destruct (N.eqb_spec (xd_focus x) 0); [contradiction|].
      cbn [xa_class FocusSpec.x_answers].
      destruct (class (xd_focus x)) as [|c cs] eqn:CL.
      * exists false, k, d. split; [reflexivity|]. split; [exact H|]. intros _ Q. contradiction.
      * destruct (xd_title x (xd_focus x)) as [|b bs] eqn:TT.
        -- exists false, k, d. split; [reflexivity|]. split; [exact H|]. intros _ _ Q. contradiction.
        -- unfold get_window_path, FocusSpec.x_path. destruct (N.eqb_spec (xd_focus x) 0); [contradiction|].
           cbn [xa_pid xa_exe FocusSpec.x_answers].
           destruct (pid (xd_focus x)) as [p|] eqn:PI; cbn [first_item]; eexists; eexists; eexists;
             (split; [reflexivity|]); (split; [right; cbn; rewrite CL, PI; reflexivity|]); reflexivity.
Qed.
Definition x_fine (s : xstep) : bool :=
  match s with XConnect => true | XAsk x => x_storable (xd_title x (xd_focus x)) end.
Lemma x_step s f : GX f -> x_fine s = true ->
  exists o f', focus_step (x_fstep s) f = Some (o, f') /\ GX f' /\
    (fo_x11 f <> None -> fo_x11 f' <> None) /\ (s = XConnect -> fo_x11 f' <> None) /\
    (forall x, s = XAsk x -> fo_x11 f <> None -> xd_focus x <> 0 -> class (xd_focus x) <> [] ->
       xd_title x (xd_focus x) <> [] ->
       fo_data f' = Win (class (xd_focus x)) (xd_title x (xd_focus x)) (x_path (xd_focus x))).
Proof.
  intros [B [W H]] F. destruct s as [|x]; cbn [x_fstep focus_step].
  - eexists. eexists. split; [reflexivity|]. split; [split; [reflexivity|split; [reflexivity|left; reflexivity]]|].
    cbn. split; [discriminate|]. split; [discriminate|]. discriminate.
  - unfold update, update_x11. destruct (fo_x11 f) as [k|] eqn:K.
    + destruct (x_ask x k (fo_data f) H F) as [r [k' [d' [U [H1 H2]]]]]. rewrite U.
      destruct r.
      * eexists. eexists. split; [reflexivity|]. split; [split; [exact B|split; [exact W|exact H1]]|].
        cbn. split; [discriminate|]. split; [discriminate|]. intros y [= <-] _. exact H2.
      * cbn [update_dbus fo_dbus]. unfold update_dbus, update_wlr. cbn [fo_dbus fo_wlr]. rewrite B. cbn [fo_wlr]. rewrite W.
        eexists. eexists. split; [reflexivity|]. split; [split; [reflexivity|split; [reflexivity|exact H1]]|].
        cbn. split; [discriminate|]. split; [discriminate|]. intros y [= <-] _. exact H2.
    + unfold update_dbus, update_wlr. rewrite B, W.
      eexists. eexists. split; [reflexivity|]. split; [split; [exact B|split; [exact W|rewrite K; exact Logic.I]]|].
      split; [intro Q; contradiction|]. split; [discriminate|]. intros y _ Q. contradiction.
Qed.
Lemma x_run l : forall f, GX f -> forallb x_fine l = true ->
  exists ws f', focus_run (map x_fstep l) f = Some (ws, f') /\ GX f' /\ (fo_x11 f <> None -> fo_x11 f' <> None).
Proof.
  induction l as [|s r IH]; intros f H F; cbn [map focus_run].
  - exists [], f. auto.
  - cbn [forallb] in F. apply andb_true_iff in F. destruct F as [F1 F2].
    destruct (x_step s f H F1) as [o [f1 [S1 [H1 [C1 _]]]]]. rewrite S1.
    destruct (IH f1 H1 F2) as [ws [f2 [R [H2 C2]]]]. rewrite R. eexists. exists f2. split; [reflexivity|].
    split; [exact H2|]. auto.
Qed.
Theorem x_knows l x : forallb x_fine (l ++ [XAsk x]) = true ->
  xd_focus x <> 0 -> class (xd_focus x) <> [] -> xd_title x (xd_focus x) <> [] ->
  exists ws f, focus_run (map x_fstep (XConnect :: l ++ [XAsk x])) new_focus = Some (ws, f) /\
    fo_data f = Win (class (xd_focus x)) (xd_title x (xd_focus x)) (x_path (xd_focus x)).
Proof.
  intros F NZ NC NT. rewrite forallb_app in F. apply andb_true_iff in F. destruct F as [F1 F2].
  cbn [forallb] in F2. rewrite andb_true_r in F2.
  assert (G0 : GX new_focus) by (repeat split).
  assert (FC : forallb x_fine (XConnect :: l) = true) by exact F1.
  change (XConnect :: l ++ [XAsk x]) with ((XConnect :: l) ++ [XAsk x]). rewrite map_app.
  assert (R1 : exists ws f', focus_run (map x_fstep (XConnect :: l)) new_focus = Some (ws, f') /\ GX f' /\ fo_x11 f' <> None).
  { cbn [map focus_run]. destruct (x_step XConnect new_focus G0 eq_refl) as [o [f1 [S1 [H1 [_ [C1 _]]]]]].
    rewrite S1. destruct (x_run l f1 H1 F1) as [ws [f2 [R [H2 C2]]]]. rewrite R. eexists. exists f2. auto. }
  destruct R1 as [ws [f1 [R [H1 C1]]]]. rewrite focus_run_app, R. cbn [map focus_run].
  destruct (x_step (XAsk x) f1 H1 F2) as [o [f2 [S2 [_ [_ [_ D]]]]]]. rewrite S2.
  eexists. exists f2. split; [reflexivity|]. apply D; auto.
Qed.
End X.

(** ** D-Bus *)

Definition GB (sent : list dmsg) (f : focus) : Prop :=
  fo_x11 f = None /\ fo_dbus f = Some false /\ fo_wlr f = None /\
  exists p, sent = p ++ fo_queue f ++ fo_socket f /\ fo_data f = last_call p (Win [] [] []).
Definition waiting (f : focus) : nat := 2 * length (fo_socket f) + length (fo_queue f).

Lemma last_call_app a b d : last_call (a ++ b) d = last_call b (last_call a d).
Proof. apply fold_left_app. Qed.

Lemma b_update a n sent f : GB sent f ->
  exists r f', update a n f = Some (r, f') /\ GB sent f' /\
    (waiting f' <= waiting f - 1)%nat /\
    (length (fo_queue f') + length (fo_socket f') >= length (fo_queue f) + length (fo_socket f) - 1)%nat.
Proof.
  intros [X [B [W [p [P D]]]]]. unfold update, update_x11. rewrite X. unfold update_dbus. rewrite B.
  unfold read_write_dispatch. destruct (fo_queue f) as [|m q] eqn:Q.
  - cbn [fst snd]. unfold update_wlr. cbn [fo_wlr]. rewrite W.
    eexists. eexists. split; [reflexivity|]. split; [|split].
    + split; [exact X|]. split; [reflexivity|]. split; [reflexivity|].
      exists p. cbn [fo_queue fo_socket fo_data]. rewrite (firstn_skipn (S n)). split; [exact P|exact D].
    + unfold waiting. cbn [fo_queue fo_socket]. rewrite Q. cbn [length].
      rewrite skipn_length, firstn_length. lia.
    + cbn [fo_queue fo_socket]. rewrite skipn_length, firstn_length. cbn [length]. lia.
  - assert (S1 : sent = (p ++ [m]) ++ q ++ fo_socket f) by (rewrite <- app_assoc; exact P).
    destruct m as [t c| |].
    + cbn. eexists. eexists. split; [reflexivity|]. split; [|split].
      * split; [exact X|]. split; [reflexivity|]. split; [exact W|].
        exists (p ++ [DFocus t c]). cbn [fo_queue fo_socket fo_data]. split; [exact S1|].
        rewrite last_call_app. reflexivity.
      * unfold waiting. cbn [fo_queue fo_socket]. rewrite Q. cbn [length]. lia.
      * cbn [fo_queue fo_socket length]. lia.
    + cbn. unfold update_wlr. cbn [fo_wlr]. rewrite W. eexists. eexists. split; [reflexivity|]. split; [|split].
      * split; [exact X|]. split; [reflexivity|]. split; [reflexivity|].
        exists (p ++ [DBad]). cbn [fo_queue fo_socket fo_data]. split; [exact S1|].
        rewrite last_call_app. exact D.
      * unfold waiting. cbn [fo_queue fo_socket]. rewrite Q. cbn [length]. lia.
      * cbn [fo_queue fo_socket length]. lia.
    + cbn. unfold update_wlr. cbn [fo_wlr]. rewrite W. eexists. eexists. split; [reflexivity|]. split; [|split].
      * split; [exact X|]. split; [reflexivity|]. split; [reflexivity|].
        exists (p ++ [DOther]). cbn [fo_queue fo_socket fo_data]. split; [exact S1|].
        rewrite last_call_app. exact D.
      * unfold waiting. cbn [fo_queue fo_socket]. rewrite Q. cbn [length]. lia.
      * cbn [fo_queue fo_socket length]. lia.
Qed.
Lemma b_run l : forall sent f, GB sent f ->
  exists ws f', focus_run (flat_map b_step l) f = Some (ws, f') /\ GB (sent ++ flat_map b_calls l) f'.
Proof.
  induction l as [|s r IH]; intros sent f H; cbn [flat_map].
  - exists [], f. rewrite app_nil_r. auto.
  - destruct s as [m|n|]; cbn [b_step b_calls app].
    + set (f1 := Fo (fo_data f) (fo_x11 f) (fo_dbus f) (fo_wlr f) (fo_queue f) (fo_socket f ++ m) (fo_wire f)).
      assert (H1 : GB (sent ++ m) f1).
      { destruct H as [X [B [W [p [P D]]]]]. split; [exact X|]. split; [exact B|]. split; [exact W|].
        exists p. cbn. split; [|exact D]. rewrite P, <- !app_assoc. reflexivity. }
      destruct (IH _ f1 H1) as [ws [f2 [R H2]]]. cbn [focus_run focus_step]. fold f1. rewrite R.
      eexists. exists f2. split; [reflexivity|]. rewrite app_assoc. exact H2.
    + destruct (b_update (XA None None None None (fun _ => [])) n _ _ H) as [b [f1 [U [H1 _]]]].
      destruct (IH _ f1 H1) as [ws [f2 [R H2]]]. cbn [focus_run focus_step]. rewrite U, R.
      eexists. exists f2. auto.
    + set (f1 := initialize false true false (shutdown f)).
      assert (H1 : GB sent f1).
      { destruct H as [X [B [W [p [P D]]]]]. split; [reflexivity|]. split; [reflexivity|]. split; [reflexivity|].
        exists p. auto. }
      destruct (IH _ f1 H1) as [ws [f2 [R H2]]]. cbn [focus_run focus_step]. fold f1. rewrite R.
      eexists. exists f2. auto.
Qed.
Lemma b_updates k : forall ns sent f, length ns = k -> GB sent f ->
  exists ws f', focus_run (flat_map b_step (map BUpdate ns)) f = Some (ws, f') /\ GB sent f' /\
    (waiting f' <= waiting f - k)%nat /\
    (length (fo_queue f') + length (fo_socket f') >= length (fo_queue f) + length (fo_socket f) - k)%nat.
Proof.
  induction k as [|k IH]; intros ns sent f L H.
  - destruct ns; [|discriminate]. exists [], f. cbn. repeat split; try lia; apply H.
  - destruct ns as [|n ns]; [discriminate|]. cbn [map flat_map b_step app focus_run focus_step].
    destruct (b_update (XA None None None None (fun _ => [])) n _ _ H) as [b [f1 [U [H1 [M1 M2]]]]]. rewrite U.
    destruct (IH ns sent f1 ltac:(cbn in L; lia) H1) as [ws [f2 [R [H2 [M3 M4]]]]]. rewrite R.
    eexists. exists f2. split; [reflexivity|]. split; [exact H2|]. lia.
Qed.
(** How many messages were dispatched at most and at least *)
Lemma b_bus : GB [] (initialize false true false new_focus).
Proof. split; [reflexivity|]. split; [reflexivity|]. split; [reflexivity|]. exists []. auto. Qed.
Theorem b_knows l ns :
  (2 * length (flat_map b_calls l) <= length ns)%nat ->
  exists ws f, focus_run (FInit false true false :: flat_map b_step (l ++ map BUpdate ns)) new_focus = Some (ws, f) /\
    fo_data f = last_call (flat_map b_calls l) (Win [] [] []).
Proof.
  intro LE. cbn [focus_run focus_step]. rewrite flat_map_app, focus_run_app.
  destruct (b_run l _ _ b_bus) as [ws1 [f1 [R1 H1]]]. rewrite R1. cbn [app] in H1.
  destruct (b_updates _ ns _ _ eq_refl H1) as [ws2 [f2 [R2 [H2 [M _]]]]]. rewrite R2.
  eexists. exists f2. split; [reflexivity|].
  destruct H1 as [_ [_ [_ [p1 [P1 _]]]]].
  assert (LW : (waiting f1 <= 2 * length (flat_map b_calls l))%nat).
  { unfold waiting. rewrite P1, !app_length. lia. }
  assert (Z : waiting f2 = 0%nat) by lia. unfold waiting in Z.
  destruct H2 as [_ [_ [_ [p [P D]]]]].
  destruct (fo_socket f2); [|cbn in Z; lia]. destruct (fo_queue f2); [|cbn in Z; lia].
  rewrite !app_nil_r in P. rewrite P. exact D.
Qed.
Theorem b_lags l calls ns :
  (length ns < length calls)%nat -> flat_map b_calls l = [] ->
  exists ws f k, focus_run (FInit false true false :: flat_map b_step (l ++ [BCalls calls] ++ map BUpdate ns)) new_focus = Some (ws, f) /\
    (k <= length ns)%nat /\ fo_data f = last_call (firstn k calls) (Win [] [] []).
Proof.
  intros LT NC. cbn [focus_run focus_step]. rewrite app_assoc, flat_map_app, focus_run_app.
  destruct (b_run (l ++ [BCalls calls]) _ _ b_bus) as [ws1 [f1 [R1 H1]]]. rewrite R1. cbn [app] in H1.
  assert (CA : flat_map b_calls (l ++ [BCalls calls]) = calls).
  { rewrite flat_map_app, NC. cbn. apply app_nil_r. }
  rewrite CA in H1.
  assert (LF : length calls = (length (fo_queue f1) + length (fo_socket f1))%nat).
  { assert (D0 : exists f0 ws0, focus_run (flat_map b_step l) (initialize false true false new_focus) = Some (ws0, f0) /\ GB [] f0).
    { destruct (b_run l _ _ b_bus) as [w0 [f0 [R0 H0]]]. rewrite NC in H0. eauto. }
    destruct D0 as [f0 [ws0 [R0 H0]]]. rewrite flat_map_app, focus_run_app, R0 in R1.
    destruct H0 as [_ [_ [_ [p [P _]]]]]. symmetry in P. apply app_eq_nil in P. destruct P as [_ P].
    apply app_eq_nil in P. destruct P as [P1 P2].
    cbn [flat_map b_step app focus_run focus_step] in R1. injection R1 as <- <-. cbn [fo_queue fo_socket].
    rewrite P1, P2. reflexivity. }
  destruct (b_updates _ ns _ _ eq_refl H1) as [ws2 [f2 [R2 [H2 [_ M]]]]]. rewrite R2.
  destruct H2 as [_ [_ [_ [p [P D]]]]]. eexists. exists f2, (length p).
  split; [reflexivity|].
  assert (LP : length calls = (length p + (length (fo_queue f2) + length (fo_socket f2)))%nat)
    by (rewrite P at 1; rewrite !app_length; reflexivity).
  split; [lia|]. rewrite P, firstn_app, Nat.sub_diag, firstn_all, firstn_O, app_nil_r. exact D.
Qed.

(** ** Reading properties *)

Definition has_items (p : xprop) : bool := match p with Some [] => false | _ => true end.
Definition in_range (s : fstep) : bool :=
  match s with FUpdate a _ => has_items (xa_active a) && has_items (xa_pid a) | _ => true end.
Theorem run_in_range l : forall f, forallb in_range l = true -> focus_run l f <> None.
Proof.
  induction l as [|s r IH]; intros f H; cbn [focus_run]; [discriminate|].
  cbn [forallb] in H. apply andb_true_iff in H. destruct H as [H1 H2].
  assert (S1 : exists o f', focus_step s f = Some (o, f')).
  { destruct s as [x d w| |l|l|a n]; cbn [focus_step]; eauto.
    enough (U : exists r f', update a n f = Some (r, f')) by (destruct U as [b [f' ->]]; eauto).
    unfold update. cbn [in_range] in H1. apply andb_true_iff in H1. destruct H1 as [A P].
    assert (X : exists b f1, update_x11 a f = Some (b, f1)).
    { unfold update_x11. destruct (fo_x11 f) as [k|]; [|eauto].
      unfold x11_update, get_focused_window.
      destruct (xa_active a) as [[|w ws]|]; [discriminate| |]; cbn [first_item]; cbv zeta.
      - destruct (_ && _); [eauto|]. destruct (get_window_class w a); [eauto|].
        destruct (get_window_title w a); [eauto|]. unfold get_window_path. destruct (w =? 0); [eauto|].
        destruct (xa_pid a) as [[|p ps]|]; [discriminate| |]; cbn [first_item]; eauto.
      - destruct (_ && _); [eauto|]. unfold get_window_class, get_window_title. cbn [N.eqb]. eauto. }
    destruct X as [b [f1 ->]]. destruct b; [eauto|]. destruct (update_dbus n f1) as [b f2]. destruct b; [eauto|].
    destruct (update_wlr f2). eauto. }
  destruct S1 as [o [f' ->]]. specialize (IH f' H2). destruct (focus_run r f') as [[ws g]|]; [discriminate|exact IH].
Qed.
