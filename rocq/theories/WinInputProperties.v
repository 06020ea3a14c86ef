(** Properties of input and output on Windows: C101 (text is typed as it is written), C102
    (what is read is sent as the same key) and C103 (a key is attributed to its device). *)
From Coq Require Import String List Arith NArith ZArith Bool Lia.
From Verif Require Import Base Key Stage Text ParseSeq Typer TyperSpec Server ServerProperties WinServer WinProperties.
From Verif Require Import WinInput WinInputSpec WinInputProofs WinTyped WinDevices WinDevicesSpec WinDevicesProofs.
Import ListNotations.
Local Open Scope N_scope.

(** * C101 *)

(** A text for which the client asks the server is typed: the server sends just the events
    of the typer, and an application which reads them with the layout gets the text in
    UTF-16, with no dead key pending and no modifier held.  For a dictionary whose entries
    are right; from a server for which nothing waits; without the driver. *)
Theorem C101_typed_partial : forall clock lay d cs s hb,
  w_right_for lay d -> no_zero_key lay -> Forall is_char cs ->
  ws_buf s = [] -> ws_sending s = false -> ws_exited s = false -> fst hb = 0 ->
  exists q, w_type_string d (encoded cs) = Some q /\
    sent (ws_trace (w_run clock [WMessages [MInjectOutput (w_injected q)]; WFlushExpired] s)) = sent (ws_trace s) ++ w_injected q /\
    fst (snd (send_inputs (w_injected q) hb)) = 0 /\
    exists held, read_inputs lay fresh_reader (fst (send_inputs (w_injected q) hb)) =
        ((held, None), flat_map utf16 (unescaped cs)) /\
      forall m, is_w_modifier m = true -> held m = false.
Proof. exact w_typed_text. Qed.
Print Assumptions C101_typed_partial.

(** The dictionary which is made of a layout is right, unless dead keys are chained. *)
Theorem C101_dictionary : forall lay keys, simple_layout lay keys ->
  (forall k, In k keys -> w_typing_key k) -> w_right_for lay (make_dictionary lay keys).
Proof. intros lay keys S1 T1. apply dictionary_right; assumption. Qed.
Print Assumptions C101_dictionary.

(** A layout: A, Q with at sign, and a dead key with acute and grave accent. *)
Definition on_a (m : N) : list N := if m =? 0 then [97] else if m =? 1 then [65] else [].
Definition on_q (m : N) : list N := if m =? 0 then [113] else if m =? 1 then [81] else [64].
Definition gives (st : option N) (l : list N) : option N * tresult :=
  match l with [] => (st, TNothing) | _ => (None, TChars l) end.
Definition accents : wlayout := fun st k m =>
  match st with
  | None =>
      if k =? 0x1E then gives st (on_a m)
      else if k =? 0x10 then gives st (on_q m)
      else if k =? 0x0D then (if m =? 0 then (Some 0xB4, TDead) else if m =? 1 then (Some 0x60, TDead) else (st, TNothing))
      else (st, TNothing)
  | Some d =>
      if k =? 0x1E then (if m =? 0 then (None, TChars [if d =? 0xB4 then 0xE1 else 0xE0])
                         else if m =? 1 then (None, TChars [if d =? 0xB4 then 0xC1 else 0xC0]) else (st, TNothing))
      else if k =? 0x10 then gives st (d :: on_q m)
      else if k =? 0x0D then (if m <? 4 then (None, TChars [d; if m =? 0 then 0xB4 else 0x60]) else (st, TNothing))
      else (st, TNothing)
  end.
Definition accent_keys : list key := [0x10; 0x1E; 0x0D].

Example C101_accents_simple : simple_layout accents accent_keys.
Proof.
  split.
  - intros k m [<-|[<-|[<-|[]]]] [<-|[<-|[<-|[]]]];
      first [left; eexists; reflexivity | right; left; eexists; reflexivity | right; right; reflexivity].
  - intros d k m [<-|[<-|[<-|[]]]] [<-|[<-|[<-|[]]]]; first [left; eexists; reflexivity | right; reflexivity].
  - intros d k [<-|[<-|[<-|[]]]]; eexists; reflexivity.
Qed.
Example C101_accents_typing : forall k, In k accent_keys -> w_typing_key k.
Proof. intros k [<-|[<-|[<-|[]]]]; vm_compute; repeat split; discriminate. Qed.
Example C101_accents_dictionary : w_right_for accents (make_dictionary accents accent_keys).
Proof. exact (C101_dictionary _ _ C101_accents_simple C101_accents_typing). Qed.
Example C101_accents_entries :
  look_up 0xE1 (make_dictionary accents accent_keys) = Some (WEntry (0x0D, 0) (0x1E, 0)) /\
  look_up 0xC0 (make_dictionary accents accent_keys) = Some (WEntry (0x0D, 1) (0x1E, 1)) /\
  look_up 64 (make_dictionary accents accent_keys) = Some (WEntry (0, 0) (0x10, 4)) /\
  look_up 0x20AC (make_dictionary accents accent_keys) = None.
Proof. vm_compute. auto. Qed.

(** Accented letters, the at sign, a euro sign, a character outside of the basic plane and an
    escaped line break *)
Definition accents_text : list N := [97; 0xE1; 0xC0; 64; 0x20AC; 0x1F600; 92; 110; 113].
Definition accents_strokes : list stroke :=
  match w_type_string (make_dictionary accents accent_keys) (encoded accents_text) with Some q => q | None => [] end.
Example C101_accents_text :
  w_type_string (make_dictionary accents accent_keys) (encoded accents_text) = Some accents_strokes /\
  snd (read_inputs accents fresh_reader (fst (send_inputs (w_injected accents_strokes) no_high_bytes)))
  = [97; 0xE1; 0xC0; 64; 0x20AC; 0xD83D; 0xDE00; 13; 113].
Proof. split; vm_compute; reflexivity. Qed.
Example C101_case : Forall is_char accents_text /\ no_zero_key accents /\
  let s := w_state (w_client "A >> B" :: w_keys "+A -A") in
  ws_buf s = [] /\ ws_sending s = false /\ ws_exited s = false /\
  sent (ws_trace (w_run ms_clock [WMessages [MInjectOutput (w_injected accents_strokes)]; WFlushExpired] s))
  = sent (ws_trace s) ++ w_injected accents_strokes.
Proof.
  split; [repeat (constructor; [unfold is_char; lia|]); constructor|].
  split; [intros [d|] m; reflexivity|]. vm_compute. auto.
Qed.

(** With chained dead keys the dictionary is wrong: twice the acute accent is the double
    acute accent, and as it is not cleared, the letter with it is recorded for one accent.
    Typing it gives the letter with the acute accent. *)
Definition chained : wlayout := fun st k m =>
  if k =? 0x0D then
    if m =? 0 then match st with None => (Some 1, TDead) | _ => (Some 2, TDead) end else (st, TNothing)
  else if (k =? 0x18) && (m =? 0) then
    match st with None => (None, TChars [111]) | Some 1 => (None, TChars [0xF3]) | _ => (None, TChars [0x151]) end
  else (st, TNothing).
Theorem C101_chained_refuted : exists lay keys, (forall k, In k keys -> w_typing_key k) /\ no_zero_key lay /\
  (exists e, look_up 0x151 (make_dictionary lay keys) = Some e /\ press_keys lay None (entry_keys e) = (None, [0xF3])) /\
  exists q, w_type_string (make_dictionary lay keys) (encoded [0x151]) = Some q /\
    snd (read_inputs lay fresh_reader (fst (send_inputs (w_injected q) no_high_bytes))) = [0xF3].
Proof.
  exists chained, [0x0D; 0x18]. split; [intros k [<-|[<-|[]]]; vm_compute; repeat split; discriminate|].
  split; [intros [d|] m; reflexivity|]. split; eexists; split; vm_compute; reflexivity.
Qed.
Print Assumptions C101_chained_refuted.

(** The event !Any in front of the text is sent as the press of a key with the scan code
    0xF000, which is never released. *)
Theorem C101_any_refuted : exists d cs q, w_type_string d (encoded cs) = Some q /\
  In (IScan 0xF000 true false) (fst (send_inputs (w_injected q) no_high_bytes)) /\
  forall x, ~ In (IScan 0xF000 x true) (fst (send_inputs (w_injected q) no_high_bytes)).
Proof.
  exists (make_dictionary accents accent_keys), accents_text, accents_strokes. split; [apply C101_accents_text|].
  split; [vm_compute; auto|]. intros x H. vm_compute in H.
  repeat (destruct H as [H|H]; [discriminate H|]). destruct H.
Qed.
Print Assumptions C101_any_refuted.

(** With the driver a character which is on no key is not typed: each event is sent as a
    mouse stroke which does nothing. *)
Theorem C101_driver_refuted : exists d cs q, Forall is_char cs /\ w_type_string d (encoded cs) = Some q /\
  Forall (fun e => i_send e = SMouse (MStroke 0 0 0 0)) (w_injected q).
Proof.
  exists (make_dictionary accents accent_keys), [0x20AC]. eexists. split; [repeat constructor; unfold is_char; lia|].
  split; [vm_compute; reflexivity|]. vm_compute. repeat constructor.
Qed.
Print Assumptions C101_driver_refuted.

(** * C102 *)

(** A key which the hook reports gets the code of that key; sending that code presses (or
    releases) the key. *)
Theorem C102_hook_keys : forall vk_to_scan x hb, 0 < kb_scan x < 256 ->
  exists e y, get_key_event vk_to_scan x = Some e /\ ek e = code_of (reported (kb_scan x, kb_extended x)) /\
    es e = (if kb_down x then Down else Up) /\
    send_input e hb = ([y], hb) /\ physical_of y = Some (reported (kb_scan x, kb_extended x), negb (kb_down x)).
Proof. exact hook_round. Qed.
Print Assumptions C102_hook_keys.
(** The right Shift key, and the Pause key, which is sent by its virtual key code *)
Example C102_hook_keys_case :
  get_key_event (fun _ => 0) (Kbd 0x36 0xA1 true true 0) = Some (ev0 ShiftRight Down) /\
  send_input (ev0 ShiftRight Down) no_high_bytes = ([IVk 0xA1 false], no_high_bytes) /\
  get_key_event (fun _ => 0) (Kbd 0x1D 0xA3 true false 0) = Some (ev0 ControlRight_w Up) /\
  send_input (ev0 ControlRight_w Up) no_high_bytes = ([IScan 0xE01D true true], no_high_bytes) /\
  send_input (ev0 Pause_w Down) no_high_bytes = ([IVk 0x13 false], no_high_bytes).
Proof. vm_compute. auto. Qed.

(** What the server sends itself is never translated again, and keys of a remote desktop
    neither. *)
Theorem C102_injected : forall vk_to_scan sending x, kb_extra x = injected_ident \/ kb_extra x = remote_ident ->
  hook_input_of vk_to_scan sending x = HPass.
Proof. intros v b x [H|H]; unfold hook_input_of; rewrite H; reflexivity. Qed.
Print Assumptions C102_injected.
Example C102_injected_case : hook_input_of (fun _ => 0) true (Kbd 0x1E 65 false true injected_ident) = HPass /\
  hook_input_of (fun _ => 0) true (Kbd 0x1E 65 false true 0) = HTranslate (ev0 30 Down).
Proof. split; reflexivity. Qed.

(** The same for the keys which the driver reports *)
Theorem C102_driver_keys : forall c st, 0 < c < 256 -> st < 4 ->
  exists e, i_event (SKey (KStroke c st)) = Some e /\ ek e = code_of (c, N.testbit st 1) /\
    es e = (if N.testbit st 0 then Up else Down) /\ i_send e = SKey (KStroke c st).
Proof. exact driver_key_round. Qed.
Print Assumptions C102_driver_keys.
Example C102_driver_keys_case : i_event (SKey (KStroke 0x1D 3)) = Some (ev0 ControlRight_w Up) /\
  i_send (ev0 ControlRight_w Up) = SKey (KStroke 0x1D 3).
Proof. split; reflexivity. Qed.

(** Buttons and wheels, with the hook and with the driver: a button, or a wheel which is
    turned by less than 4096 *)
Theorem C102_hook_mouse : forall message flag high hb,
  (In (message, flag) button_messages /\ high = 0%Z) \/
  (In (message, flag) x_button_messages /\ (high = 1 \/ high = 2)%Z) \/
  (In (message, flag) wheel_messages /\ (0 < Z.abs high < 4096)%Z) ->
  exists e, get_button_event message high = Some e /\ send_input e hb = ([IMouse flag high], hb).
Proof. exact hook_mouse_round. Qed.
Print Assumptions C102_hook_mouse.
Theorem C102_driver_mouse : forall st z,
  (In st mouse_flags /\ z = 0%Z) \/ (In st wheel_flags /\ (0 < Z.abs z < 4096)%Z) ->
  exists e, i_event (SMouse (MStroke st z 0 0)) = Some e /\ i_send e = SMouse (MStroke st z 0 0).
Proof. intros st z [[H ->]|[H B]]; [exact (driver_button_round st H)|exact (driver_wheel_round st z H B)]. Qed.
Print Assumptions C102_driver_mouse.
Example C102_mouse_case :
  get_button_event 0x20E (-30) = Some (Ev WheelLeft Up 30) /\
  send_input (Ev WheelLeft Up 30) no_high_bytes = ([IMouse 0x1000 (-30)], no_high_bytes) /\
  get_button_event 0x20C 2 = Some (ev0 ButtonForward Up) /\
  i_event (SMouse (MStroke 0x800 (-30) 0 0)) = Some (Ev WheelLeft Up 30).
Proof. vm_compute. auto. Qed.

(** A wheel which is turned by 4096 or by nothing is sent as one step. *)
Theorem C102_wheel_refuted : exists message flag high e, In (message, flag) wheel_messages /\
  get_button_event message high = Some e /\ (4096 <= high)%Z /\
  send_input e no_high_bytes = ([IMouse flag 120], no_high_bytes).
Proof. exists 0x20A, 0x800, 4096%Z. eexists. split; [left; reflexivity|]. split; [vm_compute; reflexivity|]. split; [lia|reflexivity]. Qed.
Print Assumptions C102_wheel_refuted.

(** Two buttons in one stroke of the driver: the second is lost, so is a movement. *)
Theorem C102_two_buttons_refuted : exists a b x e, In a mouse_flags /\ In b mouse_flags /\ a <> b /\
  i_event (SMouse (MStroke (N.lor a b) 0 x 0)) = Some e /\ x <> 0%Z /\ i_send e = SMouse (MStroke a 0 0 0).
Proof. exists 1, 4, 7%Z. eexists. split; [cbn; tauto|]. split; [cbn; tauto|]. split; [discriminate|]. split; [vm_compute; reflexivity|]. split; [discriminate|reflexivity]. Qed.
Print Assumptions C102_two_buttons_refuted.

(** Keys of Key.h which have no scan code on Windows are sent as another key: Find as
    BrightnessUp. *)
Definition Find_w : key := 0xD008.          (* Key.h:270 *)
Definition BrightnessUp_w : key := 0xE008.  (* Key.h:213 *)
Theorem C102_no_scan_code_refuted : exists k k', is_keyboard_key k = true /\ k <> k' /\
  exists x y, send_input (ev0 k Down) no_high_bytes = ([x], no_high_bytes) /\
    send_input (ev0 k' Down) no_high_bytes = ([y], no_high_bytes) /\
    physical_of x = physical_of y /\ physical_of x = Some ((8, true), false) /\ code_of (8, true) = k'.
Proof. exists Find_w, BrightnessUp_w. split; [reflexivity|]. split; [discriminate|]. eexists _, _. repeat split; reflexivity. Qed.
Print Assumptions C102_no_scan_code_refuted.

(** * C103 *)

(** Whatever devices come and go and whichever filters are set: no list is read out of
    range, and an index is given for just the devices which are attached and accepted by the
    filters; the description at the index is that of the device, and no two devices have the
    same index. *)
Theorem C103_devices : forall filters (grabs : filters -> device_desc -> bool) vid_pid_rev ids_of f l,
  possible ids_of (rev l) ->
  exists r a, r_run filters grabs vid_pid_rev l (new_driver f) = Some (r, a) /\
    let d := dr_devices r in
    (forall h x, desc_of (rev l) h = Some x -> grabs (filters_of f (rev l)) x = true ->
       exists i, get_device_index h d = Some i /\ nth_error (wd_descs d) i = Some x) /\
    (forall h i, get_device_index h d = Some i ->
       exists x, desc_of (rev l) h = Some x /\ grabs (filters_of f (rev l)) x = true /\ nth_error (wd_descs d) i = Some x) /\
    (forall h h' i, get_device_index h d = Some i -> get_device_index h' d = Some i -> h = h') /\
    length (wd_handles d) = length (wd_descs d).
Proof.
  intros filters grabs v ids_of f l P. destruct (run_ok filters grabs v ids_of f l P) as (r & a & R & D).
  exists r, a. split; [exact R|]. exact (lists_right filters grabs v ids_of f (rev l) r D).
Qed.
Print Assumptions C103_devices.

(** Hardware identifiers are compared correctly, and the comparison comes to an end. *)
Theorem C103_identifiers : forall vid_pid_rev a b, Forall identifier a -> Forall identifier b ->
  exists r, match_ids vid_pid_rev (S (length (with_ends a))) (with_ends a) (with_ends b) 0 = Some r /\
    (r = true <-> same_device vid_pid_rev a b).
Proof. exact match_right. Qed.
Print Assumptions C103_identifiers.

(** A stroke of the driver gets the index of its device, when among all devices which were
    ever attached its identifiers are those of this one only. *)
Theorem C103_attributed_partial : forall filters (grabs : filters -> device_desc -> bool) vid_pid_rev ids_of f l device ids h x,
  possible ids_of (rev (l ++ [RStroke device (with_ends ids)])) -> Forall identifier ids ->
  (forall k other, In (k, other) (known (rev l)) ->
     exists es, Forall identifier es /\ other = with_ends es /\ (same_device vid_pid_rev es ids <-> k = h)) ->
  In h (map fst (known (rev l))) -> h <> 0 ->
  desc_of (rev l) h = Some x -> grabs (filters_of f (rev l)) x = true ->
  exists r a i, r_run filters grabs vid_pid_rev (l ++ [RStroke device (with_ends ids)]) (new_driver f) = Some (r, a ++ [Some i]) /\
    get_device_index h (dr_devices r) = Some i /\ nth_error (wd_descs (dr_devices r)) i = Some x.
Proof.
  intros filters grabs v ids_of f l device ids h x P FI U K Z D G.
  destruct (stroke_answer filters grabs v ids_of f l device (with_ends ids) P) as (r & a & y & R & O & Y).
  rewrite (by_ids_one v (known (rev l)) ids h FI U K) in Y. cbv zeta in Y.
  destruct (N.eqb_spec h 0) as [Q|_]; [contradiction|].
  destruct (lists_right filters grabs v ids_of f _ r O) as (L1 & _).
  rewrite rev_app_distr in L1. cbn [rev app desc_of filters_of] in L1. destruct (L1 h x D G) as (i & I1 & I2).
  exists r, a, i. rewrite I1 in Y. subst y. auto.
Qed.
Print Assumptions C103_attributed_partial.

(** Three devices, of which one is not grabbed; numbers in identifiers are not looked at. *)
Definition kb (n : N) : device_desc := Dev [n] [n].
Definition but (no : N) (d : device_desc) : bool := negb (existsb (N.eqb no) (dev_name d)).
Definition id1 : list (list N) := [[72; 92; 49]; [72; 50]].
Definition id2 : list (list N) := [[72; 92; 51]; [72; 50]].
Definition no_numbers : list N -> option (N * N * N) := fun _ => None.
Definition three : list (rstep N) :=
  [RAttached 11 (Some (kb 1, with_ends id1)); RAttached 12 (Some (kb 2, with_ends id2));
   RFilters 1; RFilters 2; RAttached 13 None].
Definition ids_three (device : N) : list N := if device =? 1 then with_ends id1 else with_ends id2.
Example C103_case : possible ids_three (rev (three ++ [RStroke 1 (with_ends id1)])) /\
  r_run N but no_numbers (three ++ [RStroke 1 (with_ends id1); RStroke 2 (with_ends id2)]) (new_driver 0)
  = Some (DR (WD 2 [11] [kb 1] [12] [kb 2]) (At [(11, with_ends id1); (12, with_ends id2)] [(2, 12); (1, 11)]), [Some 0%nat; None]).
Proof. split; [vm_compute; repeat split; discriminate|vm_compute; reflexivity]. Qed.
Example C103_case_unique : Forall identifier id1 /\
  (forall k other, In (k, other) (known (rev three)) ->
     exists es, Forall identifier es /\ other = with_ends es /\ (same_device no_numbers es id1 <-> k = 11)) /\
  desc_of (rev three) 11 = Some (kb 1) /\ but (filters_of 0 (rev three)) (kb 1) = true.
Proof.
  assert (F1 : Forall identifier id1) by (repeat constructor; intro H; cbn in H; intuition discriminate).
  assert (F2 : Forall identifier id2) by (repeat constructor; intro H; cbn in H; intuition discriminate).
  split; [exact F1|]. split; [|split; reflexivity].
  intros k other [H|[H|[]]]; injection H as <- <-.
  - exists id1. split; [exact F1|]. split; [reflexivity|]. split; [reflexivity|]. intros _.
    exists [72; 92; 49], [72; 92; 49]. repeat split; cbn; auto.
  - exists id2. split; [exact F2|]. split; [reflexivity|]. split; [|intro H; discriminate H].
    intros (x & y & [<-|[<-|[]]] & [<-|[<-|[]]] & B & [Q|(n & Q & _)]); try discriminate Q. cbn in B. intuition discriminate.
Qed.

(** A keyboard which is plugged in again: its strokes are attributed to the handle it had
    before, which is attached no more; its keys are not mapped until the server is
    restarted. *)
Definition replugged : list (rstep N) :=
  [RAttached 11 (Some (kb 1, with_ends id1)); RStroke 1 (with_ends id1); RRemoved 11;
   RAttached 12 (Some (kb 1, with_ends id1)); RStroke 1 (with_ends id1)].
Theorem C103_replugged_refuted : exists l h x, possible ids_three (rev l) /\
  desc_of (rev l) h = Some x /\ but (filters_of 0 (rev l)) x = true /\
  (exists device, last l (RFilters 0) = RStroke device (with_ends id1) /\ In (h, with_ends id1) (known (rev l))) /\
  exists r, r_run N but no_numbers l (new_driver 0) = Some (r, [Some 0%nat; None]) /\ wd_descs (dr_devices r) = [x].
Proof.
  exists replugged, 12, (kb 1). split; [vm_compute; repeat split; discriminate|]. split; [reflexivity|]. split; [reflexivity|].
  split; [exists 1; split; [reflexivity|cbn; auto]|]. eexists. split; vm_compute; reflexivity.
Qed.
Print Assumptions C103_replugged_refuted.

(** Two keyboards of the same type: the keys of both are attributed to the first. *)
Definition twins : list (rstep N) :=
  [RAttached 11 (Some (Dev [1] [1], with_ends id1)); RAttached 12 (Some (Dev [1] [2], with_ends id1));
   RStroke 1 (with_ends id1); RStroke 2 (with_ends id1)].
Theorem C103_twins_refuted : exists l, possible (fun _ => with_ends id1) (rev l) /\
  desc_of (rev l) 11 = Some (Dev [1] [1]) /\ desc_of (rev l) 12 = Some (Dev [1] [2]) /\
  exists r, r_run N but no_numbers l (new_driver 0) = Some (r, [Some 0%nat; Some 0%nat]) /\
    get_device_index 12 (dr_devices r) = Some 1%nat.
Proof.
  exists twins. split; [vm_compute; repeat split; discriminate|]. split; [reflexivity|]. split; [reflexivity|].
  eexists. split; vm_compute; reflexivity.
Qed.
Print Assumptions C103_twins_refuted.

(** A list of identifiers whose last one has no end makes the comparison run forever. *)
Theorem C103_no_end_refuted : exists a, a <> [] /\ forall fuel, match_ids no_numbers fuel a [] 0 = None.
Proof.
  exists [72; 92; 49]. split; [discriminate|]. induction fuel as [|fuel IH]; [reflexivity|].
  cbn [match_ids]. exact IH.
Qed.
Print Assumptions C103_no_end_refuted.
