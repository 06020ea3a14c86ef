(** The properties of the devices and the string typer on macOS as theorems, with their
    assumptions and a non-trivial instance beside each. *)
From Coq Require Import String List Arith NArith ZArith Bool Lia.
From Verif Require Import Base Key Match Stage Text Typer MultiStage StageProperties MultiSpec MultiProofs MultiProperties.
From Verif Require Import Mac MacSpec MacProofs MacTyper MacTyperSpec MacTyperProofs.
Import ListNotations.
Local Open Scope N_scope.

(** ** C104 The virtual keyboard on macOS shows what is held *)

(** What happened is [h], newest first.  If no key is pressed which is down already: a usage is
    in a report if and only if the newest event about it pressed it, where a key is about the
    usage it had when it was pressed. *)
Theorem C104_reports : forall h r u, pressed_once h ->
  (In u (ma_reports (mac_run (rev h) new_mac) r) <-> lit h r u = true).
Proof. intros h r u H. apply gd_lit. now apply run_good. Qed.
Print Assumptions C104_reports.

(** So nothing stays pressed when everything is released. *)
Theorem C104_released : forall h, pressed_once h -> (forall s, source_held h s = false) ->
  forall r, ma_reports (mac_run (rev h) new_mac) r = [].
Proof.
  intros h H Hs r. destruct (ma_reports (mac_run (rev h) new_mac) r) as [|u l] eqn:E; [reflexivity|]. exfalso.
  assert (lit h r u = true) as Hl by (apply C104_reports; [assumption|rewrite E; now left]).
  destruct (lit_target h r u H Hl) as (s & Ht). apply target_held in Ht. congruence.
Qed.
Print Assumptions C104_released.

(** What is pressed (as usage [u] of [r]) is shown until something is released which was pressed
    as the same usage. *)
Theorem C104_held : forall q x p r u, pressed_once (q ++ x :: p) -> acts p x = Some (r, u, true) ->
  (forall q1 y q2, q = q1 ++ y :: q2 -> acts (q2 ++ x :: p) y <> Some (r, u, false)) ->
  In u (ma_reports (mac_run (rev (q ++ x :: p)) new_mac) r).
Proof. intros q x p r u Ho Ha Hq. apply C104_reports; [assumption|]. now apply lit_kept. Qed.
Print Assumptions C104_held.

Definition k_down (k : N) : mstep := MaKey (ev0 k Down).
Definition k_up (k : N) : mstep := MaKey (ev0 k Up).
Definition fn_down : mstep := MaForward 0xFF 3 1.
Definition fn_up : mstep := MaForward 0xFF 3 0.
Definition reports_after (l : list mstep) : list (list N) :=
  map (ma_reports (mac_run l new_mac)) [RKeyboard; RConsumer; RDesktop; RTopCase].

(** F1 dims the display until it is released, although Fn is pressed meanwhile; with Fn it is F1. *)
Definition f1_session : list mstep :=
  [k_down 0x3A; fn_down; k_up 0x3A; k_down 0x3A; k_down 0x04; fn_up; k_up 0x3A; k_up 0x04].
Example C104_case :
  pressed_once (rev f1_session) /\
  map (fun n => reports_after (firstn n f1_session)) [1; 2; 3; 4; 6; 8]%nat =
    [[[]; [0x70]; []; []]; [[]; [0x70]; []; [3]]; [[]; []; []; [3]]; [[0x3A]; []; []; [3]];
     [[0x3A; 0x04]; []; []; []]; [[]; []; []; []]].
Proof. split; [cbn; repeat split; intro; (reflexivity || discriminate)|vm_compute; reflexivity]. Qed.
Example C104_held_case :
  let p := [] in let x := k_down 0x3A in let q := [k_down 0x04; fn_down] in
  pressed_once (q ++ x :: p) /\ acts p x = Some (RConsumer, 0x70, true) /\
  (forall q1 y q2, q = q1 ++ y :: q2 -> acts (q2 ++ x :: p) y <> Some (RConsumer, 0x70, false)).
Proof.
  cbv zeta. split; [cbn; repeat split; intro; (reflexivity || discriminate)|]. split; [reflexivity|].
  intros [|a [|b q1]] y q2 H; cbn [app] in H.
  - injection H as <- <-. discriminate.
  - injection H as _ <- <-. discriminate.
  - destruct q1; discriminate H.
Qed.

(** Two keys which are mapped to F1, pressed at the same time: the stages send its press twice
    and its release once, and F1 pressed afterwards with Fn stays pressed forever. *)
Definition two_f1 : list (list context) := load_multi (lines ["0x04 >> 0x3A"; "0x05 >> 0x3A"])%string.
Definition sent_by (cfg : list (list context)) (l : list event) : list mstep :=
  map MaKey (List.filter (fun e => kstate_eqb (es e) Down || kstate_eqb (es e) Up)
    (snd (mrun (MContexts (all_contexts cfg) :: map (fun e => MInput e 0) l) (new_multi_stage cfg)))).
Theorem C104_twice_refuted : exists h,
  rev h = sent_by two_f1 [ev0 4 Down; ev0 5 Down; ev0 4 Up; ev0 5 Up] ++ [fn_down] ++
          sent_by two_f1 [ev0 4 Down; ev0 4 Up] ++ [fn_up] /\
  (forall s, source_held h s = false) /\ ma_reports (mac_run (rev h) new_mac) RKeyboard = [0x3A].
Proof.
  exists (rev (sent_by two_f1 [ev0 4 Down; ev0 5 Down; ev0 4 Up; ev0 5 Up] ++ [fn_down] ++
          sent_by two_f1 [ev0 4 Down; ev0 4 Up] ++ [fn_up])).
  rewrite rev_involutive. split; [reflexivity|]. split; [|vm_compute; reflexivity].
  match goal with |- forall s, source_held ?h s = false => let h' := eval vm_compute in h in change h with h' end.
  intros [k|p u]; cbn [source_held source_of source_eqb presses ek es ev0].
  - destruct (0x3A =? k); reflexivity.
  - destruct ((0xFF =? p) && (3 =? u)); reflexivity.
Qed.
Print Assumptions C104_twice_refuted.

(** Without Fn and without the directive the arrow keys are End, Home, Page Down and Page Up,
    and Backspace is Delete. *)
Theorem C104_arrows_refuted : exists h, fn_held h = false /\ fn_swapped h = false /\ pressed_once h /\
  h = map k_down [0x4F; 0x50; 0x51; 0x52; 0x2A] /\
  forall u, In u (ma_reports (mac_run (rev h) new_mac) RKeyboard) <-> In u [0x4D; 0x4A; 0x4E; 0x4B; 0x4C].
Proof.
  exists (map k_down [0x4F; 0x50; 0x51; 0x52; 0x2A]). repeat split; try (intros; reflexivity).
  - intro H. vm_compute in H. cbn [In]. intuition.
  - intro H. vm_compute. cbn [In] in H. intuition.
Qed.
Print Assumptions C104_arrows_refuted.

(** End is released while it is held, when the arrow key which became End is released. *)
Theorem C104_shared_refuted : exists h, pressed_once h /\ source_held h (SKey 0x4D) = true /\
  ma_reports (mac_run (rev h) new_mac) RKeyboard = [].
Proof.
  exists (rev [k_down 0x4D; k_down 0x4F; k_up 0x4F]). split; [cbn; repeat split; intro; (reflexivity || discriminate)|].
  split; reflexivity.
Qed.
Print Assumptions C104_shared_refuted.

(** What a grabbed keyboard sends besides is lost, except for the consumer and the vendor page:
    keys of the generic desktop page like sleep or do not disturb do nothing. *)
Theorem C104_pages_refuted : exists page usage value, mac_key_event (ME 0 page usage value) = None /\
  value <> 0%Z /\ forall m, mac_forward page usage value m = m.
Proof. exists 1, 0x9B, 1%Z. split; [reflexivity|]. split; [discriminate|reflexivity]. Qed.
Print Assumptions C104_pages_refuted.

(** Every usage of the keyboard page which is a key, from A (4) to the right Meta key (0xE7),
    is read as that key; sent unchanged it is the same usage in the report, but for the
    function keys, arrows and Backspace with the other state of Fn. *)
Theorem C104_keys : forall i u v m, 4 <= u <= 0xE7 ->
  exists e, mac_key_event (ME i 7 u v) = Some e /\ ek e = u /\ (es e = Down <-> v <> 0%Z) /\ (es e = Up <-> v = 0%Z) /\
    (is_function_key u = false -> (In u (ma_reports (mac_send e m) RKeyboard) <-> v <> 0%Z) /\
       forall r x, (r, x) <> (RKeyboard, u) -> In x (ma_reports (mac_send e m) r) <-> In x (ma_reports m r)).
Proof.
  intros i u v m [A B].
  exists (ev0 u (if (v =? 0)%Z then Up else Down)). unfold mac_key_event. cbn [me_page me_usage me_value].
  replace (u <? 4) with false by (symmetry; apply N.ltb_ge; exact A).
  replace (0xE7 <? u) with false by (symmetry; apply N.ltb_ge; exact B).
  split; [reflexivity|]. split; [reflexivity|]. cbn [es ev0].
  destruct (Z.eqb_spec v 0) as [Z0|Z0].
  - split; [split; [discriminate|contradiction]|]. split; [tauto|]. intro FK. unfold mac_send. cbn [ek es ev0]. rewrite FK.
    cbn [toggle_key ma_reports report_eqb kstate_eqb]. split.
    + split; [|contradiction]. intro Q. unfold erase_usage in Q. apply filter_In in Q. destruct Q as [_ Q].
      rewrite N.eqb_refl in Q. discriminate Q.
    + intros r x NE. destruct (report_eqb r RKeyboard) eqn:R; [|tauto].
      destruct r; try discriminate R. unfold erase_usage. rewrite filter_In. split; [tauto|]. intro Q. split; [exact Q|].
      apply negb_true_iff, N.eqb_neq. congruence.
  - split; [tauto|]. split; [split; [discriminate|contradiction]|]. intro FK. unfold mac_send. cbn [ek es ev0]. rewrite FK.
    cbn [toggle_key ma_reports report_eqb kstate_eqb].
    assert (IN : forall x l, In x (insert_usage u l) <-> x = u \/ In x l).
    { intros x l. unfold insert_usage. destruct (existsb (N.eqb u) l) eqn:Q.
      - apply existsb_exists in Q. destruct Q as (y & Hy & Q). apply N.eqb_eq in Q. subst y.
        split; [tauto|]. intros [->|H]; assumption.
      - rewrite in_app_iff. cbn. intuition congruence. }
    split; [rewrite IN; tauto|]. intros r x NE. destruct (report_eqb r RKeyboard) eqn:R; [|tauto].
    destruct r; try discriminate R. rewrite IN. split; [|tauto]. intros [Q|Q]; [congruence|exact Q].
Qed.
Print Assumptions C104_keys.
Example C104_keys_case :
  mac_key_event (ME 2 7 0xE5 1) = Some (ev0 0xE5 Down) /\ is_function_key 0xE5 = false /\
  ma_reports (mac_send (ev0 0xE5 Down) new_mac) RKeyboard = [0xE5].
Proof. vm_compute. auto. Qed.

(** A mouse button as output is a usage of the keyboard page which is no mouse button. *)
Theorem C104_buttons_refuted : exists h, h = [k_down 0x110] /\
  ma_reports (mac_run (rev h) new_mac) RKeyboard = [0x110].
Proof. eexists. split; reflexivity. Qed.
Print Assumptions C104_buttons_refuted.

(** ** C105 The grabbed devices on macOS are the ones wanted *)

(** Whatever happens, no description is taken from outside of the list. *)
Theorem C105_safe : forall virtual desc wanted builtin iso l, Forall real_devices l ->
  g_run virtual desc wanted builtin iso l new_mgrab <> None.
Proof.
  intros virtual desc wanted builtin iso l H.
  destruct (run_sound virtual desc wanted builtin iso l new_mgrab (new_sound virtual desc wanted builtin) H) as (g & a & E & _). congruence.
Qed.
Print Assumptions C105_safe.

(** At any time the open devices are the grabbed ones, each opened once, and the descriptions
    are theirs. *)
Theorem C105_open : forall virtual desc wanted builtin iso l g a, Forall real_devices l ->
  g_run virtual desc wanted builtin iso l new_mgrab = Some (g, a) ->
  NoDup (mg_open g) /\ (forall d, In d (mg_open g) <-> In d (mg_devices g)) /\
  mg_descs g = map desc (mg_devices g).
Proof.
  intros virtual desc wanted builtin iso l g a H E.
  destruct (run_sound virtual desc wanted builtin iso l new_mgrab (new_sound virtual desc wanted builtin) H) as (g' & a' & E' & S').
  rewrite E in E'. injection E' as <- <-. split; [apply S'|]. split; apply S'.
Qed.
Print Assumptions C105_open.

(** After an update they are the devices which are there, wanted, and were grabbed before or
    could be opened; the others are released. *)
Theorem C105_update : forall virtual desc wanted builtin iso l g a ok present g', Forall real_devices l ->
  NoDup present -> ~ In 0 present ->
  g_run virtual desc wanted builtin iso l new_mgrab = Some (g, a) ->
  mac_update virtual desc wanted ok present g = Some g' ->
  forall d, (In d (mg_open g') <->
    In d present /\ to_grab virtual desc wanted d /\ (In d (mg_open g) \/ ok d = true)).
Proof.
  intros virtual desc wanted builtin iso l g a ok present g' H Hn Hz E Eu d.
  destruct (run_sound virtual desc wanted builtin iso l new_mgrab (new_sound virtual desc wanted builtin) H) as (g1 & a1 & E1 & S1).
  rewrite E in E1. injection E1 as <- <-.
  destruct (update_sound virtual desc wanted builtin ok present g S1 Hn Hz) as (g2 & E2 & S2 & D2 & _).
  rewrite Eu in E2. injection E2 as <-.
  rewrite (sd_open desc g' S2), D2, filter_In, andb_true_iff, orb_true_iff, (sd_open desc g S1), (fit_to_grab virtual desc wanted builtin).
  unfold has. rewrite existsb_eqb. tauto.
Qed.
Print Assumptions C105_update.

(** Every event is attributed to the device it came from, and none is lost, if no devices come
    or go while more than one event is waiting. *)
Theorem C105_attributed_partial : forall virtual desc wanted builtin iso l g a, Forall real_devices l ->
  calm virtual desc wanted builtin iso l new_mgrab ->
  g_run virtual desc wanted builtin iso l new_mgrab = Some (g, a) ->
  map tell a ++ map tell (waiting g) = came_in desc builtin iso l.
Proof.
  intros virtual desc wanted builtin iso l g a H Hc E.
  exact (run_told virtual desc wanted builtin iso l new_mgrab g a (new_sound virtual desc wanted builtin) H Hc E).
Qed.
Print Assumptions C105_attributed_partial.

(** Input of a device which is not grabbed is attributed to none. *)
Theorem C105_unknown : forall virtual desc wanted builtin iso l g a d page usage value, Forall real_devices l ->
  g_run virtual desc wanted builtin iso l new_mgrab = Some (g, a) -> ~ In d (mg_devices g) ->
  exists g', g_step virtual desc wanted builtin iso (GInput d page usage value) g = Some (g', []) /\
    map tell (waiting g') = map tell (waiting g) ++ [(page, swap_keys iso (builtin d) page usage, value, None)].
Proof.
  intros virtual desc wanted builtin iso l g a d page usage value H E NI.
  destruct (run_sound virtual desc wanted builtin iso l new_mgrab (new_sound virtual desc wanted builtin) H) as (g1 & a1 & E1 & S1).
  rewrite E in E1. injection E1 as <- <-. eexists. split; [reflexivity|].
  unfold waiting, mac_input. cbn [mg_queue mg_descs]. rewrite !map_app. cbn [map]. f_equal. f_equal. unfold tell.
  cbn [fst snd me_page me_usage me_value me_index]. f_equal.
  destruct (find_index (N.eqb d) (mg_devices g)) as [i|] eqn:Ei.
  - apply found_in, nth_error_In in Ei. contradiction.
  - apply nth_error_None. rewrite (sd_descs desc g S1), map_length. apply le_n.
Qed.
Print Assumptions C105_unknown.

(** With the directive macos-iso-keyboard no two keys become the same. *)
Theorem C105_swap : forall iso builtin page a b, swap_keys iso builtin page a = swap_keys iso builtin page b -> a = b.
Proof. intros iso builtin page a b H. rewrite <- (swap_twice iso builtin page a), H. apply swap_twice. Qed.
Print Assumptions C105_swap.

(** Devices 5 and 7 are there, 9 is the server's own, 8 is not wanted; then 3 is attached. *)
Definition m_desc (d : N) : device_desc := Dev [d] [d].
Definition m_virtual (d : N) : bool := d =? 9.
Definition m_wanted (d : N) : bool := negb (d =? 8).
Definition m_turn (l : list N) : gstep := GTurn (fun _ => true) l.
Definition m_run (l : list gstep) : option (mgrab * list (mevent * option device_desc)) :=
  g_run m_virtual m_desc m_wanted (fun d => d =? 5) true l new_mgrab.
Definition calm_session : list gstep :=
  [GChanged; m_turn [5; 7; 8; 9]; GInput 5 7 0x35 1; GInput 7 7 0x35 1; m_turn []; GChanged;
   m_turn [3; 5; 7; 8; 9]; GInput 7 7 0x35 0; GInput 5 7 0x35 0; m_turn []; m_turn []].
Lemma calm_real : Forall real_devices calm_session.
Proof.
  repeat constructor; cbn; try tauto; intros F; repeat (destruct F as [F|F]; [discriminate F|]); try contradiction.
Qed.
Example C105_case :
  calm m_virtual m_desc m_wanted (fun d => d =? 5) true calm_session new_mgrab /\
  exists g a, m_run calm_session = Some (g, a) /\ mg_devices g = [3; 5; 7] /\ mg_open g = [5; 7; 3] /\
    map tell a = [(7, 0x64, 1%Z, Some (m_desc 5)); (7, 0x35, 1%Z, Some (m_desc 7));
                  (7, 0x35, 0%Z, Some (m_desc 7)); (7, 0x64, 0%Z, Some (m_desc 5))].
Proof.
  split.
  - vm_compute. repeat split; auto; try discriminate.
  - eexists _, _. split; [vm_compute; reflexivity|]. repeat split; reflexivity.
Qed.

Example C105_unknown_case : exists g a, m_run [GChanged; m_turn [5; 7]] = Some (g, a) /\ ~ In 8 (mg_devices g) /\ mg_devices g = [5; 7].
Proof. eexists _, _. split; [vm_compute; reflexivity|]. split; [|reflexivity]. intros [F|[F|[]]]; discriminate F. Qed.

(** When a device comes while two events wait, the devices are updated after the first one, and
    the second one is attributed to another device. *)
Theorem C105_stale_refuted : exists l g a, Forall real_devices l /\ m_run l = Some (g, a) /\
  l = [GChanged; m_turn [5]; GInput 5 7 4 1; GInput 5 7 4 0; GChanged; m_turn [3; 5]; m_turn [3; 5]] /\
  map tell a = [(7, 4, 1%Z, Some (m_desc 5)); (7, 4, 0%Z, Some (m_desc 3))].
Proof.
  eexists _, _, _. split; [|split; [|split; [reflexivity|]]].
  - repeat constructor; cbn; try tauto; intros F; repeat (destruct F as [F|F]; [discriminate F|]); try contradiction.
  - vm_compute. reflexivity.
  - reflexivity.
Qed.
Print Assumptions C105_stale_refuted.

(** And when one goes, to none. *)
Theorem C105_gone_refuted : exists l g a, Forall real_devices l /\ m_run l = Some (g, a) /\
  l = [GChanged; m_turn [3; 5]; GInput 5 7 4 1; GInput 5 7 4 0; GChanged; m_turn [5]; m_turn [5]] /\
  map tell a = [(7, 4, 1%Z, Some (m_desc 5)); (7, 4, 0%Z, None)].
Proof.
  eexists _, _, _. split; [|split; [|split; [reflexivity|]]].
  - repeat constructor; cbn; try tauto; intros F; repeat (destruct F as [F|F]; [discriminate F|]); try contradiction.
  - vm_compute. reflexivity.
  - reflexivity.
Qed.
Print Assumptions C105_gone_refuted.

(** ** C106 Strings are typed as they are on macOS *)

(** If every key gives one character at most, what is typed for characters which the layout has
    is exactly these. *)
Theorem C106_typed_partial : forall lay keys t l, one_each lay keys ->
  utf8_to_utf32 t = Some l ->
  let chars := replace_all 92 116 9 (replace_all 92 114 13 (replace_all 92 110 13 l)) in
  (forall c, In c chars -> has_key_of lay keys c \/ has_dead_keys_of lay keys c) ->
  exists s, mac_type (carbon_dictionary lay keys) t = Some s /\ receives lay None s = (chars, None).
Proof.
  intros lay keys t l Ho Ht chars Hc. unfold mac_type. rewrite Ht. eexists. split; [reflexivity|].
  apply typed_received; [assumption|]. intros c H. destruct (dictionary_spec lay keys) as (_ & D1 & D2).
  destruct (Hc c H) as [F|F]; [|now apply D2]. destruct (D1 c F) as (y & ->). discriminate.
Qed.
Print Assumptions C106_typed_partial.

(** A character which has a key is typed with a key, not with a dead key. *)
Theorem C106_one_stroke : forall lay keys c, has_key_of lay keys c ->
  exists x, carbon_dictionary lay keys c = Some [x] /\ In x (mac_strokes keys) /\ exists r, lay None x = CChars c r.
Proof.
  intros lay keys c H. destruct (dictionary_spec lay keys) as (F & D1 & _). destruct (D1 c H) as (x & Hx).
  exists x. split; [assumption|]. apply F in Hx.
  destruct Hx as [(y & r & E & Hy & Hr)|(y & n & z & r & E & _)]; [|discriminate E]. injection E as <-. eauto.
Qed.
Print Assumptions C106_one_stroke.

(** Key 1 is the letter a (97), with shift A (65); key 2 is a dead circumflex, which makes a to
    226; with option it is a question mark.  Key 3 gives s, and after the dead key nothing. *)
Definition small_layout : clayout := fun st x =>
  match st, x with
  | None, (1, 0) => CChars 97 [] | None, (1, 1) => CChars 65 []
  | None, (2, 0) => CDead 1 | None, (2, 2) => CChars 63 []
  | Some 1, (1, 0) => CChars 226 []
  | None, (3, 0) => CChars 115 []
  | _, _ => CNothing
  end.
(** As most layouts have it: the dead key and s give the circumflex and s. *)
Definition usual_layout : clayout := fun st x =>
  match st, x with
  | Some 1, (3, 0) => CChars 94 [115]
  | _, _ => small_layout st x
  end.
Lemma small_one_each : one_each small_layout [1; 2; 3].
Proof.
  intros st [k m] c r Hx H.
  assert (In k [1; 2; 3] /\ In m mac_modifiers) as [Hk Hm].
  { unfold mac_strokes in Hx. apply in_flat_map in Hx. destruct Hx as (m' & Hm & Hx).
    apply in_map_iff in Hx. destruct Hx as (k' & E & Hk). injection E as <- <-. auto. }
  clear Hx. assert (st = None \/ st = Some 1 \/ (st <> None /\ st <> Some 1)) as Hs.
  { destruct st as [[|[p|p|]]|]; auto; right; right; split; discriminate. }
  cbn [In mac_modifiers] in Hk, Hm.
  destruct Hs as [->|[->|[H1 H2]]];
    repeat (destruct Hk as [<-|Hk]); try contradiction;
    repeat (destruct Hm as [<-|Hm]); try contradiction; try discriminate H; try (injection H as <- <-; reflexivity);
    destruct st as [[|[p|p|]]|]; first [congruence | discriminate H].
Qed.
Example C106_case :
  exists s, mac_type (carbon_dictionary small_layout [1; 2; 3]) (T "sAa") = Some s /\
    s = [(3, 0); (1, 1); (1, 0)] /\ receives small_layout None s = ([115; 65; 97], None) /\
    carbon_dictionary small_layout [1; 2; 3] 226 = Some [(2, 0); (1, 0)] /\
    has_dead_keys_of small_layout [1; 2; 3] 226.
Proof.
  eexists. split; [vm_compute; reflexivity|]. split; [reflexivity|]. split; [reflexivity|]. split; [vm_compute; reflexivity|].
  exists (2, 0), 1, (1, 0), []. repeat split; vm_compute; auto 30.
Qed.

(** A circumflex is typed together with a letter nobody asked for. *)
Theorem C106_dead_refuted : exists lay keys s, mac_type (carbon_dictionary lay keys) (T "^") = Some s /\
  fst (receives lay None s) = [94; 115].
Proof. exists usual_layout, [1; 2; 3]. eexists. split; vm_compute; reflexivity. Qed.
Print Assumptions C106_dead_refuted.

(** Characters the layout does not have are typed as question marks. *)
Theorem C106_unknown_refuted : exists lay keys s, one_each lay keys /\
  mac_type (carbon_dictionary lay keys) (T "az") = Some s /\ receives lay None s = ([97; 63], None).
Proof.
  exists small_layout, [1; 2; 3]. eexists. split; [apply small_one_each|]. split; vm_compute; reflexivity.
Qed.
Print Assumptions C106_unknown_refuted.
