(** A typed text on its way through the server on Windows, and the dictionary of the typer
    (C101). *)
From Coq Require Import String Ascii List Arith NArith ZArith Bool Lia.
From Verif Require Import Base Key Text ParseSeq Typer TyperSpec TyperProofs MultiStage Server Client
  WinServer WinInput WinInputSpec WinInputProofs.
Import ListNotations.
Local Open Scope N_scope.

(** ** The server *)

Lemma text_plain k : text_key k -> is_mouse_wheel k = false /\ is_action_key k = false /\ is_virtual_key k = false /\
  (k =? k_timeout) = false /\ is_mouse_button k = false /\ (k =? ControlLeft) = false /\ (k =? ControlRight_w) = false.
Proof.
  intros [->|[->|[([K0 K1] & Km & Kp)|[->| ->]]]]; try (repeat split; reflexivity).
  unfold is_mouse_wheel, is_action_key, is_virtual_key, is_mouse_button, in_range, WheelUp, first_action, first_virtual, ButtonLeft, k_timeout, ControlRight_w.
  assert (L : forall n, 0x100 <= n -> (n <=? k) = false) by (intros; apply N.leb_gt; lia).
  rewrite !L by (vm_compute; discriminate). repeat split; try (apply N.eqb_neq; lia).
  unfold is_w_modifier, w_modifiers in Km. cbn [existsb] in Km. repeat (apply orb_false_iff in Km; destruct Km as [? Km]). assumption.
Qed.

Section Server.
Variable clock : nat -> Z.

Lemma scan_text again l : forall i s, Forall text_event l ->
  let r := w_scan clock again l i s in
  snd r = (i + length l)%nat /\ sent (ws_trace (fst r)) = sent (ws_trace s) ++ l /\ ws_buf (fst r) = ws_buf s.
Proof.
  induction l as [|e l IH]; intros i s F.
  - cbn [w_scan fst snd length]. rewrite Nat.add_0_r, app_nil_r. repeat split.
  - destruct (Forall_inv F) as [K _]. destruct (text_plain _ K) as (W & A & V & T & B & C1 & C2). cbn [w_scan].
    rewrite W, A, V, T. cbn [andb]. assert (is_control_up e = false) as ->.
    { unfold is_control_up. rewrite C1, C2. apply andb_false_r. }
    rewrite andb_false_r.
    assert (E : w_send e s = w_log (WSent e) (w_buttons (ws_buttons s) s)) by (unfold w_send, prevent_button_repeat; rewrite B; reflexivity).
    rewrite E. destruct (IH (S i) (w_log (WSent e) (w_buttons (ws_buttons s) s)) (Forall_inv_tail F)) as (I1 & I2 & I3).
    cbv zeta. rewrite I1, I2, I3. split; [cbn [length]; lia|]. split; [|reflexivity].
    unfold sent. cbn [w_log w_buttons ws_trace rev]. rewrite flat_map_app. cbn [flat_map sent_event app]. now rewrite <- app_assoc.
Qed.

(** When nothing waits to be sent, an injected text is what is sent next. *)
Lemma inject_sends l s : Forall text_event l -> ws_buf s = [] -> ws_sending s = false -> ws_exited s = false ->
  let s' := w_run clock [WMessages [MInjectOutput l]; WFlushExpired] s in
  sent (ws_trace s') = sent (ws_trace s) ++ l /\ ws_buf s' = [].
Proof.
  intros F B S X. cbn [w_run]. rewrite X. cbn [w_step fold_left w_on_message].
  set (s1 := w_hooked true (w_schedule_flush 0 (w_put l s))).
  assert (Q : ws_exited s1 = false /\ ws_sending s1 = false /\ ws_buf s1 = l /\ sent (ws_trace s1) = sent (ws_trace s)).
  { unfold s1, w_schedule_flush. destruct (ws_flush (w_put l s));
      cbn [w_hooked w_log w_flush w_put w_push w_buf ws_exited ws_sending ws_buf ws_trace]; rewrite B; (split; [exact X|]); (split; [exact S|]);
      (split; [reflexivity|]); unfold sent; cbn [rev]; rewrite ?flat_map_app; cbn [flat_map sent_event app]; now rewrite ?app_nil_r. }
  destruct Q as (Q0 & Q1 & Q2 & Q3). rewrite Q0. unfold w_flush_send_buffer. rewrite Q1.
  set (s2 := w_flush false (w_sending true s1)).
  change (w_flush_loop clock 9 0 s2) with (w_scan clock (Some (w_flush_loop clock 8)) (ws_buf s2) 0 s2).
  assert (B2 : ws_buf s2 = l) by exact Q2. rewrite B2.
  destruct (scan_text (Some (w_flush_loop clock 8)) l 0 s2 F) as (A1 & A2 & A3).
  destruct (w_scan clock (Some (w_flush_loop clock 8)) l 0 s2) as [s3 i]. cbn [fst snd] in *.
  cbn [w_sending w_buf ws_trace ws_buf]. rewrite A2, A3, B2, A1. split; [unfold s2; cbn [w_flush w_sending ws_trace]; now rewrite Q3|].
  apply skipn_all2. lia.
Qed.
End Server.

(** ** Characters *)

Lemma wide_utf16 c : wide c = utf16 c.
Proof.
  unfold wide, utf16. destruct (c <? 0x10000); [reflexivity|]. change 0x3FF with (N.ones 10). now rewrite N.land_ones, N.shiftr_div_pow2.
Qed.
Lemma wide_small c : is_char c -> Forall (fun x => x < 0x10000) (wide c).
Proof.
  intros H. unfold wide. destruct (N.ltb_spec c 0x10000) as [L|L]; [repeat constructor; exact L|].
  assert (c < 0x110000) by (unfold is_char in H; lia).
  assert ((c - 0x10000) / 1024 < 1024) by (apply N.div_lt_upper_bound; lia).
  pose proof (N.mod_lt (c - 0x10000) 1024). repeat constructor; lia.
Qed.
Lemma wide_head c : 0x10000 <= c -> exists a b, wide c = [a; b] /\ 0xD800 <= a /\ 0xD800 <= b.
Proof.
  intros H. unfold wide. destruct (N.ltb_spec c 0x10000) as [L|_]; [lia|]. eexists _, _. split; [reflexivity|]. lia.
Qed.
Lemma wide_one c : c < 0x10000 -> wide c = [c].
Proof. intros H. unfold wide. now apply N.ltb_lt in H as ->. Qed.
Lemma unescaped_wide l : unescaped (flat_map wide l) = flat_map wide (unescaped l).
Proof.
  remember (length l) as n eqn:E. assert (L : (length l <= n)%nat) by lia. clear E. revert l L.
  induction n as [|n IH]; intros [|x l] L; try reflexivity; try (cbn in L; lia).
  cbn [length] in L. assert (Hl := IH l ltac:(lia)). cbn [flat_map].
  destruct (N.eq_dec x 92) as [->|Nx].
  2: { rewrite (unescaped_other x) by exact Nx. cbn [flat_map]. rewrite <- Hl. destruct (N.ltb_spec x 0x10000) as [S|S].
       - rewrite wide_one by exact S. cbn [app]. now apply unescaped_other.
       - destruct (wide_head x S) as (a & b & -> & A & B). cbn [app]. rewrite !unescaped_other by lia. reflexivity. }
  rewrite wide_one by reflexivity. cbn [app].
  destruct l as [|y r]; [reflexivity|]. cbn [length] in L. assert (Hr := IH r ltac:(lia)).
  assert (U : forall y r, unescaped (92 :: y :: r) = if (y =? 110) || (y =? 114) then 13 :: unescaped r
                else if y =? 116 then 9 :: unescaped r else 92 :: unescaped (y :: r)) by reflexivity.
  rewrite (U y r). destruct (N.eq_dec y 110) as [->|N1].
  { cbn [flat_map]. rewrite wide_one by reflexivity. cbn [app]. rewrite U. cbn [N.eqb Pos.eqb orb]. cbn [flat_map]. now rewrite Hr. }
  destruct (N.eq_dec y 114) as [->|N2].
  { cbn [flat_map]. rewrite wide_one by reflexivity. cbn [app]. rewrite U. cbn [N.eqb Pos.eqb orb]. cbn [flat_map]. now rewrite Hr. }
  destruct (N.eq_dec y 116) as [->|N3].
  { cbn [flat_map]. rewrite wide_one by reflexivity. cbn [app]. rewrite U. cbn [N.eqb Pos.eqb orb]. cbn [flat_map]. now rewrite Hr. }
  assert (E : exists a t, flat_map wide (y :: r) = a :: t /\ a <> 110 /\ a <> 114 /\ a <> 116).
  { cbn [flat_map]. destruct (N.ltb_spec y 0x10000) as [S|S].
    - rewrite wide_one by exact S. eexists _, _. split; [reflexivity|auto].
    - destruct (wide_head y S) as (a & b & -> & A & B). eexists _, _. split; [reflexivity|]. lia. }
  destruct E as (a & t & E & E1 & E2 & E3). rewrite E, U.
  apply N.eqb_neq in N1, N2, N3, E1, E2, E3. rewrite N1, N2, N3, E1, E2, E3. cbn [orb flat_map].
  rewrite wide_one by reflexivity. cbn [app]. rewrite <- Hl. cbn [flat_map] in E. cbn [flat_map]. now rewrite E.
Qed.
Lemma unescaped_chars l : Forall is_char l -> Forall is_char (unescaped l).
Proof.
  remember (length l) as n eqn:E. assert (L : (length l <= n)%nat) by lia. clear E. revert l L.
  induction n as [|n IH]; intros [|x l] L F; try constructor; try (cbn in L; lia).
  cbn [length] in L. inversion_clear F as [|? ? Fx Fl].
  destruct (N.eq_dec x 92) as [->|Nx].
  - destruct l as [|y l]; [repeat constructor; exact Fx|]. inversion_clear Fl as [|? ? Fy Fl2]. cbn [length] in L.
    change (unescaped (92 :: y :: l)) with (if (y =? 110) || (y =? 114) then 13 :: unescaped l
      else if y =? 116 then 9 :: unescaped l else 92 :: unescaped (y :: l)).
    destruct ((y =? 110) || (y =? 114)); [constructor; [left; lia|apply IH; [lia|assumption]]|].
    destruct (y =? 116); [constructor; [left; lia|apply IH; [lia|assumption]]|].
    constructor; [exact Fx|]. apply IH; [cbn; lia|]. constructor; assumption.
  - rewrite unescaped_other by exact Nx. constructor; [exact Fx|]. apply IH; [lia|assumption].
Qed.
Lemma w_type_encoded d l : Forall is_char l ->
  w_type_string d (encoded l) = Some (flat_map (w_type_char d) (flat_map utf16 (unescaped l))).
Proof.
  intros F. unfold w_type_string, utf8_to_wide. rewrite utf8_decodes by exact F. cbn [option_map].
  rewrite unescape_passes, unescaped_wide. do 2 f_equal. apply flat_map_ext. apply wide_utf16.
Qed.
Lemma char_good lay d l : w_right_for lay d -> Forall good_stroke (flat_map (w_type_char d) l).
Proof.
  intros HR. apply Forall_flat_map, Forall_forall. intros c _. unfold w_type_char. destruct (look_up c d) as [e|] eqn:L.
  - destruct (HR c e L) as [He _]. unfold entry_keys in He. destruct (fst (we_dead e) =? 0).
    + constructor; [|constructor]. destruct (He (we_key e) (or_introl eq_refl)) as [K M]. split; [left; exact K|exact M].
    + constructor; [|constructor; [|constructor]].
      * destruct (He (we_dead e) (or_introl eq_refl)) as [K M]. split; [left; exact K|exact M].
      * destruct (He (we_key e) (or_intror (or_introl eq_refl))) as [K M]. split; [left; exact K|exact M].
  - repeat (apply Forall_cons || apply Forall_nil); (split; [right; reflexivity|left; reflexivity]).
Qed.

Theorem w_typed_text clock lay d cs s hb :
  w_right_for lay d -> no_zero_key lay -> Forall is_char cs ->
  ws_buf s = [] -> ws_sending s = false -> ws_exited s = false -> fst hb = 0 ->
  exists q, w_type_string d (encoded cs) = Some q /\
    sent (ws_trace (w_run clock [WMessages [MInjectOutput (w_injected q)]; WFlushExpired] s)) = sent (ws_trace s) ++ w_injected q /\
    fst (snd (send_inputs (w_injected q) hb)) = 0 /\
    exists held, read_inputs lay fresh_reader (fst (send_inputs (w_injected q) hb)) =
        ((held, None), flat_map utf16 (unescaped cs)) /\
      forall m, is_w_modifier m = true -> held m = false.
Proof.
  intros HR HZ Fc Sb Ss Sx Hh. eexists. split; [now apply w_type_encoded|].
  pose proof (char_good lay d (flat_map utf16 (unescaped cs)) HR) as G.
  split.
  - apply inject_sends; auto. destruct (injected_shape _ G) as (x & u & v & _ & _ & _ & _ & Ft & _). exact Ft.
  - apply (injected_reads lay d); auto. rewrite <- (flat_map_ext _ _ wide_utf16). apply Forall_flat_map.
    eapply Forall_impl; [|apply unescaped_chars; exact Fc]. apply wide_small.
Qed.

(** ** The dictionary *)

Section Dictionary.
Variable lay : wlayout.
Variable keys : list key.
Hypothesis simple : simple_layout lay keys.
Hypothesis typing : forall k, In k keys -> w_typing_key k.

Definition known (l : list (key * N)) : Prop := forall k m, In (k, m) l -> In k keys /\ In m [0; 1; 4].
Lemma known_pairs : known (pairs_to_try keys).
Proof.
  intros k m H. unfold pairs_to_try in H. apply in_flat_map in H. destruct H as (m' & Hm & H).
  apply in_map_iff in H. destruct H as (k' & E & H). injection E as <- <-. split; assumption.
Qed.
Lemma known_tail x l : known (x :: l) -> known l.
Proof. intros H k m Hk. apply H. now right. Qed.

(** A dead key of the layout *)
Definition is_dead (x : key * N) : Prop := exists d, lay None (fst x) (snd x) = (Some d, TDead).
Lemma dead_found l : known l -> snd (find_dead lay l None) = None /\
  (forall x, In x (fst (find_dead lay l None)) -> In x l /\ is_dead x) /\
  (forall x, In x l -> is_dead x -> In x (fst (find_dead lay l None))).
Proof.
  induction l as [|[k m] l IH]; intros H; cbn [find_dead]; [split; [reflexivity|]; split; intros x []|].
  destruct (H k m (or_introl eq_refl)) as [Hk Hm]. destruct (IH (known_tail _ _ H)) as (I0 & I1 & I2).
  destruct (sl_first _ _ simple k m Hk Hm) as [(d & E)|[(cs & E)|E]]; rewrite E.
  - destruct (sl_plain _ _ simple d k Hk) as (cs & P). rewrite P. cbn [fst].
    destruct (find_dead lay l None) as [ds st]. cbn [fst snd] in *. split; [exact I0|]. split.
    + intros x [<-|Hx]; [split; [now left|exists d; exact E]|]. destruct (I1 x Hx). split; [now right|assumption].
    + intros x [<-|Hx] D; [now left|right; auto].
  - split; [exact I0|]. split; [intros x Hx; destruct (I1 x Hx); split; [now right|assumption]|].
    intros x [<-|Hx] D; [destruct D as (d & D); cbn [fst snd] in D; rewrite E in D; discriminate D|auto].
  - split; [exact I0|]. split; [intros x Hx; destruct (I1 x Hx); split; [now right|assumption]|].
    intros x [<-|Hx] D; [destruct D as (d & D); cbn [fst snd] in D; rewrite E in D; discriminate D|auto].
Qed.

Lemma look_up_app c e d : look_up c (d ++ [(c, e)]) = match look_up c d with Some x => Some x | None => Some e end.
Proof.
  induction d as [|[x y] d IH]; cbn [app look_up]; [now rewrite N.eqb_refl|]. destruct (x =? c); [reflexivity|exact IH].
Qed.
Lemma look_up_other c c' e d : c <> c' -> look_up c (d ++ [(c', e)]) = look_up c d.
Proof.
  intros H. induction d as [|[x y] d IH]; cbn [app look_up]; [|destruct (x =? c); [reflexivity|exact IH]].
  destruct (N.eqb_spec c' c); [congruence|reflexivity].
Qed.
Lemma emplace_right c e d : w_right_for lay d ->
  (forall x, In x (entry_keys e) -> w_typing_key (fst x) /\ In (snd x) [0; 1; 4]) ->
  press_keys lay None (entry_keys e) = (None, [c]) -> w_right_for lay (emplace c e d).
Proof.
  intros HR He Pe c' e' L. unfold emplace in L. destruct (look_up c d) as [x|] eqn:Lc; [now apply HR|].
  destruct (N.eq_dec c' c) as [->|Nc].
  - rewrite look_up_app, Lc in L. injection L as <-. split; assumption.
  - rewrite look_up_other in L by exact Nc. now apply HR.
Qed.

Lemma chars_right deads dead l : known l ->
  (forall x, In x deads -> In (fst x) keys /\ In (snd x) [0; 1; 4] /\ is_dead x) -> (forall x, In x l -> is_dead x -> In x deads) ->
  (match dead with Some x => In x deads | None => True end) ->
  forall d, w_right_for lay d -> w_right_for lay (fst (find_chars lay deads dead l d None)) /\
    snd (find_chars lay deads dead l d None) = None.
Proof.
  intros Kn Hd All Hdead. induction l as [|[k m] l IH]; intros d HR; [split; [exact HR|reflexivity]|].
  destruct (Kn k m (or_introl eq_refl)) as [Hk Hm]. specialize (IH (known_tail _ _ Kn) (fun x Hx => All x (or_intror Hx))).
  destruct dead as [[dk dm]|]; cbn [find_chars].
  - destruct (Hd _ Hdead) as (Hdk & Hdm & (v & Dv)). cbn [fst snd] in *. rewrite Dv. cbn [fst].
    destruct (sl_second _ _ simple v k m Hk Hm) as [(cs & E)|E]; rewrite E.
    + destruct cs as [|c [|? ?]]; try (apply IH; exact HR). apply IH. apply emplace_right; [exact HR| |].
      * unfold entry_keys. cbn [we_dead we_key fst]. destruct (typing dk Hdk) as ((Z & _) & _).
        replace (dk =? 0) with false by (symmetry; apply N.eqb_neq; lia). cbn [app].
        intros x [<-|[<-|[]]]; split; auto.
      * unfold entry_keys. cbn [we_dead we_key fst]. destruct (typing dk Hdk) as ((Z & _) & _).
        replace (dk =? 0) with false by (symmetry; apply N.eqb_neq; lia). cbn [app press_keys]. rewrite Dv, E. reflexivity.
    + destruct (sl_plain _ _ simple v k Hk) as (cs & P). rewrite P. cbn [fst]. apply IH. exact HR.
  - destruct (existsb (fun x => (fst x =? k) && (snd x =? m)) deads) eqn:X; [apply IH; exact HR|].
    destruct (sl_first _ _ simple k m Hk Hm) as [(v & E)|[(cs & E)|E]]; rewrite E.
    + exfalso. assert (In (k, m) deads) as Q by (apply All; [now left|exists v; exact E]).
      assert (existsb (fun x => (fst x =? k) && (snd x =? m)) deads = true); [|congruence].
      apply existsb_exists. exists (k, m). split; [exact Q|]. cbn [fst snd]. now rewrite !N.eqb_refl.
    + destruct cs as [|c [|? ?]]; try (apply IH; exact HR). apply IH. apply emplace_right; [exact HR| |].
      * intros x [<-|[]]. split; auto.
      * unfold entry_keys. cbn [we_dead we_key fst N.eqb app press_keys]. rewrite E. reflexivity.
    + apply IH. exact HR.
Qed.

Lemma dictionary_right : w_right_for lay (make_dictionary lay keys).
Proof.
  unfold make_dictionary. pose proof (dead_found _ known_pairs) as (D0 & D1 & D2).
  destruct (find_dead lay (pairs_to_try keys) None) as [deads st]. cbn [fst snd] in D0, D1, D2. subst st.
  assert (Hd : forall x, In x deads -> In (fst x) keys /\ In (snd x) [0; 1; 4] /\ is_dead x).
  { intros [k m] Hx. destruct (D1 _ Hx) as [H1 H2]. destruct (known_pairs k m H1). auto. }
  assert (F : forall l, (forall x, In x l -> match x with Some y => In y deads | None => True end) ->
    forall d, w_right_for lay d ->
      w_right_for lay (fst (fold_left (fun (x : wdictionary * option N) dead => find_chars lay deads dead (pairs_to_try keys) (fst x) (snd x)) l (d, None)))).
  { induction l as [|x l IH]; intros Hl d HR; [exact HR|]. cbn [fold_left fst snd].
    destruct (chars_right deads x (pairs_to_try keys) known_pairs Hd D2 (Hl x (or_introl eq_refl)) d HR) as [R1 R2].
    destruct (find_chars lay deads x (pairs_to_try keys) d None) as [d1 s1]. cbn [fst snd] in R1, R2. subst s1.
    apply IH; [intros y Hy; apply Hl; now right|exact R1]. }
  apply F; [|intros c e L; discriminate L]. intros x [<-|Hx]; [exact Logic.I|].
  apply in_map_iff in Hx. destruct Hx as (y & <- & Hy). exact Hy.
Qed.
End Dictionary.
