(** Properties C74 to C77 of the virtual devices of Linux, with their assumptions and a
    non-trivial case beside each. *)
From Coq Require Import String List Arith NArith ZArith Bool Lia SpecFloat.
From Verif Require Import Base Key Match Stage Text ParseSeq Config MultiStage Replay.
From Verif Require Import StageSpec StageOut MultiProofs MultiProperties.
From Verif Require Import Server ServerLoop ServerSpec ServerStrokes ServerProperties Client ClientSpec ClientProperties.
From Verif Require Import Device DeviceSpec DeviceProofs DeviceWheel.
Import ListNotations.
Local Open Scope Z_scope.
Local Arguments ev0 _%N _.
Local Arguments Ev _%N _ _%N.
Local Arguments stroke_call _%N _.
Local Arguments holds _%N _.
Local Arguments mice_have _%N _.
Local Arguments steady _%N _.
Local Arguments stroke_step _%N _.
Local Arguments is_down_after _ _%N.
Local Arguments Desc _ _ _%N _.
Local Arguments IE _%N _%N _.

(** The devices when everything succeeds *)
Definition ok (_ : nat) : bool := true.
Definition told (l : list vcall) : list vwrite := vs_log (vrun ok ok l new_vdevices).

(** A mouse with three buttons and a wheel, and a keyboard which only has keys *)
Definition small_mouse (id : Z) : vdesc := Desc id [0x110; 0x111; 0x112]%N 0x103 [].
Definition large_mouse (id : Z) : vdesc := Desc id (map N.of_nat (seq 0x110 5)) 0x1943 [].
Definition report : ievent := IE 0 0 0.

(** ** C74 Keys put out are pressed on the virtual keyboard *)

(** Key [k] is held on the virtual keyboard, and on no other device, exactly while the
    last the server sent for it is a press. *)
Theorem C74_keys_partial : forall write_ok create_ok k l,
  (forall n, write_ok n = true) -> (0 < k < 0x200)%N -> is_mouse_button k = false -> is_mouse_wheel k = false ->
  Forall loop_call l -> Forall (stroke_call k) l ->
  let t := vs_log (vrun write_ok create_ok l new_vdevices) in
  (held_on VKeyboard k t <-> holds k l = true) /\ forall d, d <> VKeyboard -> ~ held_on d k t.
Proof.
  intros wo co k l W R NB NW F1 F2 t. pose proof (keyed_run wo co W k l R NB NW F1 F2) as [H _]. fold t in H.
  unfold held_on. split; [now rewrite H|]. intros d Hd. rewrite H. apply vid_eqb_neq in Hd. rewrite Hd. discriminate.
Qed.
Print Assumptions C74_keys_partial.

(** Whatever can be written: sending a key or a button writes its event and the end of the
    report (SYN_REPORT) to one device, and succeeds exactly when both are written. *)
Theorem C74_reported : forall write_ok e s, is_mouse_wheel (ek e) = false ->
  exists d v, let '(s', done) := send_key_event write_ok e s in
  (done = true -> vs_log s' = vs_log s ++ [WEvent d (IE EV_KEY (ek e) v) true; WEvent d report true]) /\
  (done = false -> vs_log s' = vs_log s ++ [WEvent d (IE EV_KEY (ek e) v) false] \/
                   vs_log s' = vs_log s ++ [WEvent d (IE EV_KEY (ek e) v) true; WEvent d report false]) /\
  (is_mouse_button (ek e) = false -> d = VKeyboard) /\ (v = 0 <-> es e = Up).
Proof.
  intros write_ok e s NW. unfold send_key_event. rewrite NW, orb_false_r. cbn zeta.
  set (d := match vs_last s with Some m => _ | None => _ end).
  destruct (update_key_state e (get_vdevice d s)) as [v x] eqn:U. exists d, v.
  assert (HD : is_mouse_button (ek e) = false -> d = VKeyboard) by (intros B; unfold d; rewrite B; destruct (vs_last s); reflexivity).
  assert (HV : v = 0 <-> es e = Up).
  { unfold update_key_state in U. destruct (es e); try (destruct (existsb _ _)); injection U as <- _; split; congruence. }
  assert (L : vs_log (put_vdevice d x s) = vs_log s) by (destruct d; reflexivity).
  unfold send_event. cbn [vlog vs_log]. rewrite L. destruct (write_ok (List.length (vs_log s))); cbn iota beta; cbn [vlog vs_log]; rewrite ?L.
  - generalize (write_ok (List.length (vs_log s ++ [WEvent d (IE EV_KEY (ek e) v) true]))). intros w. rewrite <- app_assoc.
    split; [intros ->; reflexivity|]. split; [intros ->; right; reflexivity|]. split; [exact HD|exact HV].
  - split; [discriminate|]. split; [intros _; left; reflexivity|]. split; [exact HD|exact HV].
Qed.
Print Assumptions C74_reported.

(** Keys are pressed and released among other keys, buttons, motions and changes of the
    devices. *)
Example C74_case :
  let l := [VUpdate [None; Some (small_mouse 7)]; VSend (ev0 30 Down); VForwarded 1 (IE EV_REL 0 5); VSend (ev0 0x110 Down);
            VForwarded 1 report; VSend (Ev WheelUp Up 0); VSend (ev0 30 Down); VUpdate [None]; VSend (ev0 48 Down)] in
  Forall loop_call l /\ Forall (stroke_call 30) l /\ Forall (stroke_call 48) l /\
  kn_held (kernel_run (told l)) VKeyboard 30%N = true /\ kn_held (kernel_run (told l)) VKeyboard 48%N = true /\
  kn_held (kernel_run (told (l ++ [VSend (ev0 30 Up)]))) VKeyboard 30%N = false.
Proof.
  cbn zeta. split; [repeat constructor|]. split; [repeat (constructor; cbn; auto)|]. split; [repeat (constructor; cbn; auto)|].
  vm_compute. auto.
Qed.

(** Together with the server: whatever it is asked to do, and whatever the devices
    forward in between, the applications see a key pressed exactly while it is down in
    what the server delivered. *)
Definition sends_in (l : list vcall) : sequence := flat_map (fun c => match c with VSend e => [e] | _ => [] end) l.
Theorem C74_server_partial : forall clock send_ok write_ok create_ok k requests calls,
  (forall n, write_ok n = true) -> (0 < k < 0x200)%N -> is_mouse_button k = false -> is_mouse_wheel k = false ->
  Forall (stroke_step k) requests ->
  let s := server_run clock send_ok requests init_server in
  ~ In EExit (sv_trace s) -> sends_in calls = delivered (sv_trace s) -> Forall loop_call calls ->
  (held_somewhere k (vs_log (vrun write_ok create_ok calls new_vdevices)) <-> is_down_after (delivered (sv_trace s)) k = true).
Proof.
  intros clock send_ok wo co k requests calls W R NB NW F s NX E LC.
  assert (NT : k <> k_timeout) by (intros ->; vm_compute in R; destruct R; discriminate).
  pose proof (run_strokes clock send_ok k NT requests F NX) as D. fold s in D. rewrite <- E in *.
  assert (F2 : Forall (stroke_call k) calls).
  { clear -D. induction calls as [|c l IH]; [constructor|]. unfold sends_in in D. cbn [flat_map] in D. apply Forall_app in D.
    destruct D as [D1 D2]. constructor; [|auto]. destruct c; try exact Logic.I. now apply Forall_inv in D1. }
  pose proof (keyed_run wo co W k calls R NB NW LC F2) as [H _].
  assert (Q : holds k calls = is_down_after (sends_in calls) k).
  { clear. induction calls as [|c l IH] using rev_ind; [reflexivity|]. rewrite holds_snoc. unfold sends_in. rewrite flat_map_app.
    fold (sends_in l). cbn [flat_map]. destruct c; rewrite ?app_nil_r; try exact IH.
    unfold is_down_after in *. rewrite find_last_app. unfold has_key at 1. cbn [find_last].
    destruct (N.eqb (ek e) k) eqn:Q; cbn [orb]; [reflexivity|]. exact IH. }
  rewrite <- Q. unfold held_somewhere, held_on. split.
  - intros (d & Hd). rewrite H in Hd. now apply andb_prop in Hd.
  - intros Hl. exists VKeyboard. rewrite H, Hl. reflexivity.
Qed.
Print Assumptions C74_server_partial.
Example C74_server_case :
  let l := [configure "A >> X"; activate "A >> X"] ++ typed "+A +B -A" ++ [SFlush] in
  let s := server_run ms_clock sends l init_server in
  delivered (sv_trace s) = [ev0 45 Down; ev0 48 Down; ev0 45 Up] /\ Forall (stroke_step 48) l /\ ~ In EExit (sv_trace s) /\
  is_down_after (delivered (sv_trace s)) 48 = true /\ is_down_after (delivered (sv_trace s)) 45 = false.
Proof.
  cbn zeta. split; [vm_compute; reflexivity|]. split; [|split; [|vm_compute; auto]].
  - constructor.
    + exists (load_multi "A >> X"%string). split; [|reflexivity]. vm_compute. repeat constructor; auto 10.
    + vm_compute. repeat (constructor; [repeat split; auto|]); constructor.
  - vm_compute. intros H. repeat destruct H as [H|H]; try discriminate. exact H.
Qed.

(** Missing: keys with codes from 0x200 on, as some keyboards have them, are put out on
    the virtual keyboard although it did not announce them, and get lost. *)
Theorem C74_codes_refuted : exists k e, to_key_event (IE EV_KEY k 1) = Some e /\ es e = Down /\
  (0 < k)%N /\ holds k [VSend e] = true /\ ~ held_somewhere k (told [VSend e]) /\
  kn_delivered (kernel_run (told [VSend e])) = [(VKeyboard, report)].
Proof.
  exists 0x249%N. eexists. split; [reflexivity|]. split; [reflexivity|]. split; [reflexivity|]. split; [reflexivity|].
  split; [|vm_compute; reflexivity]. intros (d & H). unfold held_on in H. destruct d; vm_compute in H; discriminate.
Qed.
Print Assumptions C74_codes_refuted.

(** ** C48 with the devices: injected sequences leave no key down *)

(** What the server hands to the devices when a sequence is injected *)
Definition injected (l : sequence) : list vcall :=
  map VSend (delivered (sv_trace (server_run ms_clock sends [SMessage (MInjectOutput l); SFlush] init_server))).

(** Keys of an injected sequence which are only pressed and released are not held
    afterwards. *)
Theorem C48_devices_partial : forall write_ok create_ok typer t l k,
  parse_injected typer t = Some l -> (forall n, write_ok n = true) ->
  (0 < k < 0x200)%N -> is_mouse_button k = false -> is_mouse_wheel k = false ->
  Forall (fun e => ek e = k -> es e = Up \/ es e = Down) l ->
  ~ held_somewhere k (vs_log (vrun write_ok create_ok (map VSend l) new_vdevices)).
Proof.
  intros wo co typer t l k P W R NB NW F (d & H). unfold held_on in H.
  assert (F1 : Forall loop_call (map VSend l)) by (apply Forall_map, Forall_forall; intros; exact Logic.I).
  assert (F2 : Forall (stroke_call k) (map VSend l)) by (apply Forall_map; exact F).
  pose proof (keyed_run wo co W k _ R NB NW F1 F2) as [K _]. rewrite K in H. clear K.
  pose proof (C48_released typer t l P k) as Q.
  assert (E : holds k (map VSend l) = pressed_after k l).
  { clear -F. induction l as [|e l IH] using rev_ind; [reflexivity|]. apply Forall_app in F. destruct F as [F F'].
    apply Forall_inv in F'. rewrite map_app. cbn [map]. rewrite holds_snoc. unfold pressed_after. rewrite fold_left_app. cbn [fold_left].
    fold (pressed_after k l). rewrite <- IH by exact F. destruct (N.eqb (ek e) k) eqn:Ek; [|reflexivity].
    apply N.eqb_eq in Ek. destruct (F' Ek) as [S|S]; rewrite S; reflexivity. }
  rewrite E, Q, andb_false_r in H. discriminate H.
Qed.
Print Assumptions C48_devices_partial.

Example C48_devices_case : exists l, parse_injected no_typer (T "A{B} C") = Some l /\
  Forall (fun e => ek e = 30%N -> es e = Up \/ es e = Down) l /\
  injected l = map VSend l /\ kn_delivered (kernel_run (told (injected l))) <> [].
Proof.
  eexists. split; [vm_compute; reflexivity|]. split; [repeat (constructor; cbn; auto)|]. split; [vm_compute; reflexivity|].
  vm_compute. discriminate.
Qed.

(** Missing: `keymapperctl --output "!A"`, which should release A, presses it for good:
    the devices take every state other than Up for a press, and nothing is appended for
    it. *)
Theorem C48_not_refuted : exists l, parse_injected no_typer (T "!A") = Some l /\
  held_on VKeyboard 30%N (told (injected l)).
Proof. eexists. split; [vm_compute; reflexivity|]. vm_compute. reflexivity. Qed.
Print Assumptions C48_not_refuted.

(** ** C75 Buttons are released where they were pressed *)

(** While no other mouse gets active and no device comes or goes, a button is held on
    the mouse used last (or the virtual keyboard), exactly while the last the server
    sent for it is a press. *)
Theorem C75_buttons_partial : forall write_ok create_ok k l,
  (forall n, write_ok n = true) -> (forall n, create_ok n = true) -> is_mouse_button k = true ->
  Forall loop_call l -> Forall (stroke_call k) l -> same_devices l -> mice_have k l -> steady k l ->
  let t := vs_log (vrun write_ok create_ok l new_vdevices) in
  let d := match active_mouse l with Some id => VForward id | None => VKeyboard end in
  (held_somewhere k t <-> holds k l = true) /\ (holds k l = true -> held_on d k t).
Proof.
  intros wo co k l W C B F1 F2 SD MH ST t d. pose proof (tracked_run wo co W C k l B F1 F2 SD MH ST) as TR.
  pose proof (tr_held _ _ _ TR) as H. fold t in H. change (tgt l) with d in H. unfold held_somewhere, held_on.
  split; [split|].
  - intros (d' & Hd). rewrite H in Hd. now apply andb_prop in Hd.
  - intros Hl. exists d. rewrite H, Hl, vid_eqb_refl. reflexivity.
  - intros Hl. rewrite H, Hl, vid_eqb_refl. reflexivity.
Qed.
Print Assumptions C75_buttons_partial.

Definition clicks : list vcall :=
  [VUpdate [None; Some (small_mouse 7); Some (large_mouse 8)]; VForwarded 1 (IE EV_REL 0 5); VSend (ev0 0x110 Down); VForwarded 1 report;
   VSend (ev0 30 Down); VForwarded 1 (IE EV_REL 1 (-3)); VSend (ev0 0x110 Up); VForwarded 2 (IE EV_REL 0 1); VSend (ev0 0x110 Down)].
Lemma prefix_cases {A} (P : list A -> A -> list A -> Prop) (l : list A) :
  (forall n, (n < length l)%nat -> forall c, nth_error l n = Some c -> P (firstn n l) c (skipn (S n) l)) ->
  forall a c b, l = a ++ c :: b -> P a c b.
Proof.
  intros H a c b E. specialize (H (length a)). rewrite E in H. rewrite firstn_app, Nat.sub_diag, firstn_all in H.
  cbn [firstn] in H. rewrite app_nil_r in H. rewrite skipn_app, skipn_all2 in H by lia.
  replace (S (length a) - length a)%nat with 1%nat in H by lia. cbn [skipn app] in H. apply H.
  - rewrite app_length. cbn [length]. lia.
  - rewrite nth_error_app2, Nat.sub_diag by lia. reflexivity.
Qed.
Example C75_case :
  Forall loop_call clicks /\ Forall (stroke_call 0x110) clicks /\ same_devices clicks /\
  mice_have 0x110 clicks /\ steady 0x110 clicks /\
  kn_held (kernel_run (told clicks)) (VForward 8) 0x110%N = true /\ kn_held (kernel_run (told clicks)) (VForward 7) 0x110%N = false /\
  kn_held (kernel_run (told (firstn 4 clicks))) (VForward 7) 0x110%N = true.
Proof.
  split; [repeat constructor|]. split; [repeat (constructor; cbn; auto)|].
  assert (D : devices_of clicks = [small_mouse 7; large_mouse 8]) by reflexivity.
  split; [split|].
  - rewrite D. intros x y [<-|[<-|[]]] [<-|[<-|[]]] H; try reflexivity; discriminate H.
  - intros c H. repeat destruct H as [<-|H]; try contradiction; try constructor; cbn; try tauto; try discriminate.
    + intros [H|[]]. discriminate H.
    + constructor; [intros []|constructor].
  - split; [unfold mice_have; rewrite D; intros x [<-|[<-|[]]] _; cbn; auto|]. split; [|vm_compute; auto].
    unfold steady. apply (prefix_cases (fun a c b => holds 0x110 a = true -> active_mouse (a ++ [c]) = active_mouse a)).
    intros n Hn c Hc. do 9 (destruct n as [|n]; [injection Hc as <-; vm_compute; auto; discriminate|]). cbn in Hn. lia.
Qed.

(** Missing: a mouse gets active by the report which follows its first click.  Then the
    press is put out on the virtual keyboard and the release on the mouse; the button
    stays held. *)
Theorem C75_first_click_refuted : exists l, Forall loop_call l /\ Forall (stroke_call 0x110) l /\
  l = [VUpdate [None; Some (small_mouse 7)]; VSend (ev0 0x110 Down); VForwarded 1 report; VSend (ev0 0x110 Up); VForwarded 1 report] /\
  holds 0x110 l = false /\ held_on VKeyboard 0x110%N (told l).
Proof.
  eexists. repeat apply conj; [| |reflexivity|reflexivity|vm_compute; reflexivity];
    repeat (constructor; cbn; auto).
Qed.
Print Assumptions C75_first_click_refuted.

(** Missing: plugging in another device while a button is held also separates them. *)
Theorem C75_plugged_refuted : exists l, Forall loop_call l /\ Forall (stroke_call 0x110) l /\ same_devices l /\ mice_have 0x110 l /\
  holds 0x110 l = false /\ held_on (VForward 7) 0x110%N (told l).
Proof.
  exists [VUpdate [Some (small_mouse 7)]; VForwarded 0 (IE EV_REL 0 5); VSend (ev0 0x110 Down); VForwarded 0 report;
          VUpdate [Some (small_mouse 7); None]; VSend (ev0 0x110 Up)].
  split; [repeat constructor|]. split; [repeat (constructor; cbn; auto)|]. split; [split|].
  - intros x y [<-|[<-|[]]] [<-|[<-|[]]] _; reflexivity.
  - intros c H. repeat destruct H as [<-|H]; try contradiction; repeat constructor; intros [].
  - split; [intros x [<-|[<-|[]]] _; cbn; auto|]. vm_compute. auto.
Qed.
Print Assumptions C75_plugged_refuted.

(** Missing: a button which the mouse used last does not have gets lost, for instance
    when a key is mapped to ButtonForward. *)
Theorem C75_missing_button_refuted : exists l k, is_mouse_button k = true /\ Forall loop_call l /\ Forall (stroke_call k) l /\
  same_devices l /\ steady k l /\ holds k l = true /\ ~ held_somewhere k (told l).
Proof.
  exists [VUpdate [Some (small_mouse 7)]; VForwarded 0 (IE EV_REL 0 5); VSend (ev0 0x114 Down)], 0x114%N.
  split; [reflexivity|]. split; [repeat constructor|]. split; [repeat (constructor; cbn; auto)|]. split; [split|].
  - intros x y [<-|[]] [<-|[]] _. reflexivity.
  - intros c H. repeat destruct H as [<-|H]; try contradiction; repeat constructor; intros [].
  - split; [|split; [reflexivity|]].
    + unfold steady. apply (prefix_cases (fun a c b => holds 0x114 a = true -> active_mouse (a ++ [c]) = active_mouse a)).
      intros n Hn c Hc. do 3 (destruct n as [|n]; [injection Hc as <-; vm_compute; auto; discriminate|]). cbn in Hn. lia.
    + intros (d & H). unfold held_on in H. destruct d as [|id]; [vm_compute in H; discriminate|].
      set (t := told _) in H. vm_compute in t. subst t. cbn in H. destruct (id =? 7); discriminate H.
Qed.
Print Assumptions C75_missing_button_refuted.

(** ** C76 Wheels turn as far as they were turned *)

(** Every motion sent is written once, in order and exactly. *)
Theorem C76_high : forall write_ok create_ok l vertical, (forall n, write_ok n = true) -> (forall n, create_ok n = true) ->
  Forall loop_call l -> listed_once l ->
  steps_written true vertical (vs_log (vrun write_ok create_ok l new_vdevices)) = wheel_sent vertical l.
Proof. intros wo co l v W C F SD. apply (wh_high _ _ (wheeled_run wo co W C l F SD)). Qed.
Print Assumptions C76_high.

(** On each device the whole steps and the fine ones differ by less than a step. *)
Theorem C76_low : forall write_ok create_ok l d vertical, (forall n, write_ok n = true) -> (forall n, create_ok n = true) ->
  Forall loop_call l -> listed_once l ->
  let t := vs_log (vrun write_ok create_ok l new_vdevices) in
  Z.abs (written d true vertical t - 120 * written d false vertical t) < 120.
Proof.
  intros wo co l d v W C F SD t. pose proof (wheeled_run wo co W C l F SD) as [_ S1 S2 _].
  specialize (S1 d v). specialize (S2 d v). fold t in S1. rewrite S1.
  replace (120 * written d false v t + acc v (get_vdevice d (vrun wo co l new_vdevices)) - 120 * written d false v t)
    with (acc v (get_vdevice d (vrun wo co l new_vdevices))) by lia. exact S2.
Qed.
Print Assumptions C76_low.

(** Whole steps are written as such, with whatever else is going on. *)
Theorem C76_steps : forall write_ok create_ok l, (forall n, write_ok n = true) -> (forall n, create_ok n = true) ->
  Forall loop_call l -> listed_once l -> (forall v, Forall (fun z => (120 | z)) (wheel_sent v l)) ->
  forall v, map (fun n => 120 * n) (steps_written false v (vs_log (vrun write_ok create_ok l new_vdevices))) = wheel_sent v l.
Proof.
  intros wo co l W C F SD M v. rewrite (lows_run wo co W C l F SD M v), map_map. specialize (M v). clear -M.
  induction M as [|z r [n ->] _ IH]; [reflexivity|]. cbn [map]. rewrite IH, Z.div_mul by lia. f_equal. lia.
Qed.
Print Assumptions C76_steps.

Example C76_case :
  let l := [VUpdate [Some (large_mouse 7)]; VSend (Ev WheelUp Up 0); VForwarded 0 (IE EV_REL 0 5); VSend (Ev WheelDown Up 50);
            VSend (Ev WheelDown Up 50); VSend (Ev WheelLeft Up 240); VSend (Ev WheelDown Up 50)] in
  Forall loop_call l /\ listed_once l /\
  wheel_sent true l = [120; -50; -50; -50] /\ wheel_sent false l = [-240] /\
  steps_written false true (told l) = [1; -1] /\ steps_written false false (told l) = [-2] /\
  written (VForward 7) true true (told l) = -150 /\ written (VForward 7) false true (told l) = -1.
Proof.
  cbn zeta. split; [repeat constructor|]. split; [|vm_compute; auto 10].
  intros c H. repeat destruct H as [<-|H]; try contradiction; repeat constructor; intros [].
Qed.
Example C76_steps_case :
  let l := [VSend (Ev WheelUp Up 0); VSend (ev0 30 Down); VSend (Ev WheelUp Up 360); VSend (Ev WheelRight Up 120)] in
  Forall loop_call l /\ listed_once l /\ (forall v, Forall (fun z => (120 | z)) (wheel_sent v l)) /\
  steps_written false true (told l) = [1; 3] /\ steps_written false false (told l) = [1].
Proof.
  cbn zeta. split; [repeat constructor|]. split.
  - intros c H. repeat destruct H as [<-|H]; try contradiction; constructor.
  - split; [|vm_compute; auto]. intros [].
    + change (wheel_sent true _) with [120; 360]. repeat constructor; [exists 1|exists 3]; reflexivity.
    + change (wheel_sent false _) with [120]. repeat constructor. exists 1. reflexivity.
Qed.

(** The steps of a wheel which only reports whole ones arrive as they are, when the
    server passes them on. *)
Definition read_key (g : grabbed) (e : ievent) : option event :=
  match read_conversion g e with Some e => to_key_event e | None => None end.
Theorem C76_passed_partial : forall g vs vertical, g_highres g = false -> Forall (fun v => 0 < Z.abs v <= 34) vs ->
  exists keys, map (fun v => read_key g (IE EV_REL (wheel_code false vertical) v)) vs = map Some keys /\
    steps_written false vertical (told (map VSend keys)) = vs /\
    steps_written true vertical (told (map VSend keys)) = map (fun v => 120 * v) vs.
Proof.
  intros g vs vt G F.
  set (key := fun v => Ev (if v <? 0 then (if vt then WheelDown else WheelLeft) else (if vt then WheelUp else WheelRight)) Up (Z.to_N (120 * Z.abs v))).
  exists (map key vs).
  assert (K : forall v, 0 < Z.abs v <= 34 -> read_key g (IE EV_REL (wheel_code false vt) v) = Some (key v)).
  { intros v Hv. unfold read_key, read_conversion. cbn [ie_type ie_code ie_value]. rewrite G.
    assert (I1 : int_fits (v * 120) = true) by (unfold int_fits; rewrite andb_true_iff, !Z.leb_le; lia). rewrite I1.
    assert (M : N.modulo (Z.to_N (Z.abs (v * 120))) 4096 = Z.to_N (120 * Z.abs v)).
    { rewrite N.mod_small; [f_equal; lia|]. lia. }
    assert (L : (v * 120 <? 0) = (v <? 0)) by (destruct (Z.ltb_spec v 0), (Z.ltb_spec (v * 120) 0); lia).
    unfold key. destruct vt; cbn [wheel_code negb andb orb]; unfold to_key_event; cbn [ie_type ie_code ie_value N.eqb EV_REL EV_KEY EV_ABS Pos.eqb REL_WHEEL REL_HWHEEL REL_WHEEL_HI_RES REL_HWHEEL_HI_RES andb orb];
      rewrite L, M; reflexivity. }
  assert (MO : forall v, 0 < Z.abs v <= 34 -> motion (key v) = 120 * v).
  { intros v Hv. unfold motion, key. cbn [ek ev].
    assert (Z0 : N.eqb (Z.to_N (120 * Z.abs v)) 0 = false) by (apply N.eqb_neq; lia). rewrite Z0. rewrite Z2N.id by lia.
    destruct (Z.ltb_spec v 0), vt; cbn [N.eqb WheelDown WheelLeft WheelUp WheelRight Pos.eqb orb]; lia. }
  assert (WS : forall v, wheel_sent v (map VSend (map key vs)) = if Bool.eqb vt v then map (fun v => 120 * v) vs else []).
  { intros v. clear K. induction F as [|x l Hx F IH]; [now destruct (Bool.eqb vt v)|].
    unfold wheel_sent in *. cbn [map flat_map]. rewrite IH, MO by exact Hx.
    assert (A : is_mouse_wheel (ek (key x)) = true /\ vertical_wheel (ek (key x)) = vt) by (unfold key; cbn [ek]; destruct (x <? 0), vt; split; reflexivity).
    destruct A as [A1 A2]. rewrite A1, A2. cbn [andb]. destruct (Bool.eqb vt v); reflexivity. }
  assert (F1 : Forall loop_call (map VSend (map key vs))) by (apply Forall_map, Forall_forall; intros; exact Logic.I).
  assert (F2 : listed_once (map VSend (map key vs))).
  { intros c H. apply in_map_iff in H. destruct H as (e & <- & _). constructor. }
  split; [|split].
  - rewrite map_map. apply map_ext_in. intros v Hv. apply K. rewrite Forall_forall in F. auto.
  - unfold told. rewrite (lows_run ok ok (fun _ => eq_refl) (fun _ => eq_refl) _ F1 F2).
    + rewrite WS, eqb_reflx, map_map. rewrite <- (map_id vs) at 2. apply map_ext. intros v. rewrite Z.mul_comm. apply Z.div_mul. lia.
    + intros v. rewrite WS. destruct (Bool.eqb vt v); [|constructor]. apply Forall_map, Forall_forall. intros z _. exists z. lia.
  - unfold told. rewrite (wh_high _ _ (wheeled_run ok ok (fun _ => eq_refl) (fun _ => eq_refl) _ F1 F2)), WS, eqb_reflx. reflexivity.
Qed.
Print Assumptions C76_passed_partial.

(** Missing: a report of 35 steps and more is cut to 12 bits. *)
Theorem C76_fast_refuted : exists g k, g_highres g = false /\ read_key g (IE EV_REL REL_WHEEL 35) = Some k /\
  steps_written true true (told [VSend k]) = [104] /\ steps_written false true (told [VSend k]) = [].
Proof.
  exists (G default_abs_range default_abs_range false). eexists. split; [reflexivity|]. split; [vm_compute; reflexivity|]. vm_compute. auto.
Qed.
Print Assumptions C76_fast_refuted.

(** Missing: the steps of a tilt wheel without fine steps are dropped when the other
    wheel of the device has fine steps. *)
Theorem C76_tilt_refuted : exists axes g, N.testbit axes REL_HWHEEL = true /\ N.testbit axes REL_HWHEEL_HI_RES = false /\
  g_highres g = has_highres_wheel axes /\
  exists k, read_key g (IE EV_REL REL_HWHEEL 1) = Some k /\ ek k = k_none.
Proof.
  exists (N.shiftl 1 REL_HWHEEL + N.shiftl 1 REL_WHEEL + N.shiftl 1 REL_WHEEL_HI_RES)%N, (G default_abs_range default_abs_range true).
  split; [reflexivity|]. split; [reflexivity|]. split; [reflexivity|]. eexists. split; reflexivity.
Qed.
Print Assumptions C76_tilt_refuted.

(** Missing: motions which the mouse used last did not announce are written but do not
    arrive. *)
Theorem C76_missing_wheel_refuted : exists l, Forall loop_call l /\ listed_once l /\ wheel_sent false l = [120] /\
  forall d e, In (d, e) (kn_delivered (kernel_run (told l))) -> ie_type e <> EV_REL \/ ie_code e = 0%N.
Proof.
  exists [VUpdate [Some (small_mouse 7)]; VForwarded 0 (IE EV_REL 0 5); VSend (Ev WheelRight Up 0)].
  split; [repeat constructor|]. split; [|split; [reflexivity|]].
  - intros c H. repeat destruct H as [<-|H]; try contradiction; repeat constructor; intros [].
  - intros d e H. vm_compute in H. destruct H as [[= <- <-]|[[= <- <-]|[]]]; [right; reflexivity|left; discriminate].
Qed.
Print Assumptions C76_missing_wheel_refuted.

(** Missing: a wheel event whose motion could not be written counts as sent. *)
Theorem C76_unwritten_refuted : exists write_ok e, is_mouse_wheel (ek e) = true /\
  let '(s', done) := send_key_event write_ok e new_vdevices in
  done = true /\ kn_delivered (kernel_run (vs_log s')) = [(VKeyboard, report)].
Proof. exists (fun n => Nat.leb 2 n), (Ev WheelUp Up 120). vm_compute. repeat split. Qed.
Print Assumptions C76_unwritten_refuted.

(** ** C77 Positions are within the announced range *)

Theorem C77_positions_partial : forall write_ok create_ok l, (forall n, write_ok n = true) -> (forall n, create_ok n = true) ->
  Forall loop_call l -> same_devices l -> no_mapped_axes l -> read_positions l ->
  positions_fit (vs_log (vrun write_ok create_ok l new_vdevices)).
Proof. intros wo co l W C F SD NM RP. apply (pl_fit _ _ (placed_run wo co W C l F SD NM RP)). Qed.
Print Assumptions C77_positions_partial.

(** The range of the device becomes that of the virtual keyboard, without turning
    around. *)
Theorem C77_mapped : forall r, r_min r < r_max r -> r_max r - r_min r <= 2099202 ->
  map_to_range (r_min r) r default_abs_range = Some 0 /\ map_to_range (r_max r) r default_abs_range = Some 1023 /\
  forall v v', r_min r <= v <= v' -> v' <= r_max r ->
    exists z z', map_to_range v r default_abs_range = Some z /\ map_to_range v' r default_abs_range = Some z' /\ z <= z'.
Proof.
  intros r L D. destruct (map_ends r L D) as [A B]. split; [exact A|]. split; [exact B|]. intros v v' H1 H2.
  assert (I1 : in_axis r v) by (unfold in_axis; lia). assert (I2 : in_axis r v') by (unfold in_axis; lia).
  destruct (map_total v r I1 D) as [z Z1], (map_total v' r I2 D) as [z' Z2]. exists z, z'.
  split; [exact Z1|]. split; [exact Z2|]. assert (L1 : v <= v') by lia. exact (map_monotone v v' r z z' I1 I2 L1 Z1 Z2).
Qed.
Print Assumptions C77_mapped.

Definition tablet (id : Z) : vdesc := Desc id [0x110%N] 3 [(0%N, Rg 0 4000); (1%N, Rg 0 3000)].
Example C77_case :
  let l := [VUpdate [None; Some (tablet 7)]; VForwarded 0 (IE EV_ABS ABS_VOLUME 511); VForwarded 1 (IE EV_ABS 0 4000)] in
  Forall loop_call l /\ same_devices l /\ no_mapped_axes l /\ read_positions l /\
  kn_delivered (kernel_run (told l)) = [(VKeyboard, IE EV_ABS ABS_VOLUME 511); (VForward 7, IE EV_ABS 0 4000)].
Proof.
  cbn zeta. split; [repeat constructor|]. split; [split|].
  - intros x y [<-|[]] [<-|[]] _. reflexivity.
  - intros c H. repeat destruct H as [<-|H]; try contradiction; repeat constructor; intros [].
  - split; [intros x r [<-|[]]; split; (intros [H|[H|[]]]; discriminate H)|]. split; [|vm_compute; reflexivity].
    intros a i e b x E. revert x. revert i e E.
    assert (C : forall a c b, [VUpdate [None; Some (tablet 7)]; VForwarded 0 (IE EV_ABS ABS_VOLUME 511); VForwarded 1 (IE EV_ABS 0 4000)] = a ++ c :: b ->
      forall i e, c = VForwarded i e -> forall x, nth_error (listed a) i = Some x -> ie_type e = EV_ABS ->
      exists g raw, read_conversion g raw = Some e /\ reported g x raw).
    { apply (prefix_cases (fun a c b => forall i e, c = VForwarded i e -> forall x, nth_error (listed a) i = Some x -> ie_type e = EV_ABS ->
        exists g raw, read_conversion g raw = Some e /\ reported g x raw)).
      intros n Hn c Hc.
      destruct n as [|n]; [injection Hc as <-; intros i e; discriminate|].
      destruct n as [|n]; [|destruct n as [|n]; [|cbn in Hn; lia]]; injection Hc as <-; intros i e [= <- <-] x Hx _.
      - injection Hx as <-. exists (G (Rg 0 100) default_abs_range false), (IE EV_ABS ABS_VOLUME 50). split; [vm_compute; reflexivity|].
        split; [intros _; unfold in_axis; cbn; lia|]. split; [discriminate|]. intros y r. discriminate.
      - injection Hx as <-. exists (G default_abs_range default_abs_range false), (IE EV_ABS 0 4000). split; [reflexivity|].
        split; [discriminate|]. split; [discriminate|]. intros y r [= <-] [[= <-]|[[=]|[]]]. unfold in_axis. cbn. lia. }
    intros i e E x. exact (C a _ b E i e eq_refl x).
Qed.
Example C77_mapped_case : r_min (Rg (-32) 31) < r_max (Rg (-32) 31) /\ map_to_range 0 (Rg (-32) 31) default_abs_range = Some 519.
Proof. vm_compute. auto. Qed.

(** Missing: a device with a virtual device of its own announces its own range, but the
    positions of these two axes are mapped to that of the virtual keyboard. *)
Theorem C77_forwarded_refuted : exists l x, same_devices l /\ Forall loop_call l /\ read_positions l /\
  devices_of l = [x] /\ In (ABS_VOLUME, Rg 0 31) (d_abs x) /\
  In (VForward (d_id x), IE EV_ABS ABS_VOLUME 1023) (kn_delivered (kernel_run (told l))) /\ ~ positions_fit (told l).
Proof.
  set (x := Desc 7 [0x110%N] 3 [(ABS_VOLUME, Rg 0 31)]).
  exists [VUpdate [Some x]; VForwarded 0 (IE EV_ABS ABS_VOLUME 1023)], x. split; [split|].
  - intros a b [<-|[]] [<-|[]] _. reflexivity.
  - intros c H. repeat destruct H as [<-|H]; try contradiction; repeat constructor; intros [].
  - split; [repeat constructor|]. split; [|split; [reflexivity|split; [now left|split; [vm_compute; auto|]]]].
    + intros a i e b y E. revert y. revert i e E.
      assert (C : forall a c b, [VUpdate [Some x]; VForwarded 0 (IE EV_ABS ABS_VOLUME 1023)] = a ++ c :: b ->
        forall i e, c = VForwarded i e -> forall y, nth_error (listed a) i = Some y -> ie_type e = EV_ABS ->
        exists g raw, read_conversion g raw = Some e /\ reported g y raw).
      { apply (prefix_cases (fun a c b => forall i e, c = VForwarded i e -> forall y, nth_error (listed a) i = Some y -> ie_type e = EV_ABS ->
          exists g raw, read_conversion g raw = Some e /\ reported g y raw)).
        intros n Hn c Hc. destruct n as [|n]; [injection Hc as <-; intros i e; discriminate|].
        destruct n as [|n]; [|cbn in Hn; lia]. injection Hc as <-. intros i e [= <- <-] y Hy _.
        injection Hy as <-. exists (G (Rg 0 31) default_abs_range false), (IE EV_ABS ABS_VOLUME 31). split; [vm_compute; reflexivity|].
        split; [intros _; unfold in_axis; cbn; lia|]. split; [discriminate|]. intros y r [= <-] [[= <-]|[]]. unfold in_axis. cbn. lia. }
      intros i e E y. exact (C a _ b E i e eq_refl y).
    + intros P. specialize (P [WCreate x] (VForward 7) (IE EV_ABS ABS_VOLUME 1023) [] x (Rg 0 31) eq_refl eq_refl eq_refl (or_introl eq_refl)).
      unfold in_axis in P. cbn in P. lia.
Qed.
Print Assumptions C77_forwarded_refuted.

(** Missing: the multiplication overflows for wide ranges. *)
Theorem C77_wide_refuted : exists g raw, in_axis (g_misc g) (ie_value raw) /\ r_max (g_misc g) = 4194303 /\ r_min (g_misc g) = 0 /\
  ie_type raw = EV_ABS /\ ie_code raw = ABS_MISC /\ read_conversion g raw = None.
Proof.
  exists (G default_abs_range (Rg 0 4194303) false), (IE EV_ABS ABS_MISC 3000000). split; [unfold in_axis; cbn; lia|].
  repeat (split; [reflexivity|]). vm_compute. reflexivity.
Qed.
Print Assumptions C77_wide_refuted.
