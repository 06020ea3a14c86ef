(** What is typed arrives (C58). *)
From Coq Require Import String Ascii List Arith NArith ZArith Bool Lia ZifyN.
From Verif Require Import Base Key Text TextProofs MacroTokens ParseSeq Client ClientSpec ClientInject Device DeviceSpec DeviceProofs Typer TyperSpec.
Import ListNotations.
Local Open Scope N_scope.

(** ** UTF-8 *)

Lemma code_byte n : n < 256 -> code (byte n) = n.
Proof. intros H. unfold code, byte. now apply N_ascii_embedding. Qed.
Lemma continuation_byte n : n < 64 -> continuation (byte (0x80 + n)) = Some n.
Proof.
  intros H. unfold continuation. rewrite code_byte by lia.
  destruct (N.leb_spec 0x80 (0x80 + n)); [|lia]. destruct (N.ltb_spec (0x80 + n) 0xC0); [|lia].
  cbn [andb]. f_equal. lia.
Qed.
Ltac dm := zify; Z.div_mod_to_equations; lia.
Lemma utf8_char c t : is_char c -> utf8_to_utf32 (utf8 c ++ t) = option_map (cons c) (utf8_to_utf32 t).
Proof.
  intros H. unfold is_char in H. unfold utf8.
  destruct (N.ltb_spec c 0x80) as [A|A]; [|destruct (N.ltb_spec c 0x800) as [B|B]; [|destruct (N.ltb_spec c 0x10000) as [C|C]]].
  - cbn [app utf8_to_utf32]. rewrite code_byte by lia. destruct (N.ltb_spec c 0x80); [reflexivity|lia].
  - cbn [app utf8_to_utf32]. rewrite code_byte by dm.
    destruct (N.ltb_spec (0xC0 + c / 64) 0x80); [lia|]. destruct (N.ltb_spec (0xC0 + c / 64) 0xC2); [dm|].
    rewrite continuation_byte by dm. destruct (N.ltb_spec (0xC0 + c / 64) 0xE0); [|dm].
    do 2 f_equal. dm.
  - cbn [app utf8_to_utf32]. rewrite code_byte by dm.
    destruct (N.ltb_spec (0xE0 + c / 4096) 0x80); [lia|]. destruct (N.ltb_spec (0xE0 + c / 4096) 0xC2); [lia|].
    rewrite !continuation_byte by dm. destruct (N.ltb_spec (0xE0 + c / 4096) 0xE0); [lia|].
    destruct (N.ltb_spec (0xE0 + c / 4096) 0xF0); [|dm].
    assert (E : ((0xE0 + c / 4096 - 0xE0) * 64 + c / 64 mod 64) * 64 + c mod 64 = c) by dm. rewrite E.
    destruct (N.ltb_spec c 0x800); [lia|]. cbn [orb].
    destruct (N.leb_spec 0xD800 c); destruct (N.ltb_spec c 0xE000); cbn [andb]; try reflexivity; lia.
  - cbn [app utf8_to_utf32]. rewrite code_byte by dm.
    destruct (N.ltb_spec (0xF0 + c / 262144) 0x80); [lia|]. destruct (N.ltb_spec (0xF0 + c / 262144) 0xC2); [lia|].
    rewrite !continuation_byte by dm. destruct (N.ltb_spec (0xF0 + c / 262144) 0xE0); [lia|].
    destruct (N.ltb_spec (0xF0 + c / 262144) 0xF0); [lia|].
    assert (E : (((0xF0 + c / 262144 - 0xF0) * 64 + c / 4096 mod 64) * 64 + c / 64 mod 64) * 64 + c mod 64 = c) by dm. rewrite E.
    destruct (N.leb_spec 0xF5 (0xF0 + c / 262144)); [dm|]. destruct (N.ltb_spec c 0x10000); [lia|].
    destruct (N.ltb_spec 0x10FFFF c); [lia|]. reflexivity.
Qed.
Lemma utf8_decodes l : Forall is_char l -> utf8_to_utf32 (encoded l) = Some l.
Proof.
  induction 1 as [|c l Hc _ IH]; [reflexivity|]. unfold encoded. cbn [flat_map]. rewrite utf8_char by exact Hc.
  fold (encoded l). now rewrite IH.
Qed.

(** ASCII characters only stand for themselves. *)
Lemma utf8_byte c n : is_char c -> n < 0x80 -> In (byte n) (utf8 c) -> c = n.
Proof.
  intros H Hn. unfold is_char in H. unfold utf8.
  assert (Q : forall x, x < 256 -> byte x = byte n -> x = n).
  { intros x Hx E. rewrite <- (code_byte x), <- (code_byte n) by lia. now rewrite E. }
  destruct (N.ltb_spec c 0x80) as [A|A]; [|destruct (N.ltb_spec c 0x800) as [B|B]; [|destruct (N.ltb_spec c 0x10000) as [C|C]]];
    intros I; repeat destruct I as [I|I]; try contradiction; apply Q in I; dm.
Qed.
Lemma encoded_byte l n : Forall is_char l -> n < 0x80 -> In (byte n) (encoded l) -> In n l.
Proof.
  intros F Hn H. unfold encoded in H. apply in_flat_map in H. destruct H as (c & Hc & H).
  rewrite Forall_forall in F. apply utf8_byte in H; auto. now subst.
Qed.

(** ** Escapes *)

Lemma replace_other a b to x l : x <> a -> replace_all a b to (x :: l) = x :: replace_all a b to l.
Proof. intros H. destruct l; [reflexivity|]. cbn [replace_all]. apply N.eqb_neq in H. now rewrite H. Qed.
Lemma replace_head a b to y r : exists z w, replace_all a b to (y :: r) = z :: w /\ (z = y \/ y = a /\ z = to).
Proof.
  destruct r as [|x r]; [exists y, []; cbn; auto|]. cbn [replace_all].
  destruct (N.eqb_spec y a); cbn [andb]; [destruct (x =? b)|]; eexists _, _; split; try reflexivity; auto.
Qed.
Lemma replace_keep a b to z w : z <> b -> replace_all a b to (a :: z :: w) = a :: replace_all a b to (z :: w).
Proof. intros H. apply N.eqb_neq in H. cbn [replace_all]. now rewrite H, andb_false_r. Qed.
Lemma replace_hit a b to w : replace_all a b to (a :: b :: w) = to :: replace_all a b to w.
Proof. cbn [replace_all]. now rewrite !N.eqb_refl. Qed.
Lemma unescaped_other x l : x <> 92 -> unescaped (x :: l) = x :: unescaped l.
Proof.
  intros H. cbn [unescaped]. destruct x as [|p]; [reflexivity|].
  repeat (destruct p; try reflexivity). congruence.
Qed.

Lemma unescape_passes l :
  replace_all 92 116 9 (replace_all 92 114 13 (replace_all 92 110 13 l)) = unescaped l.
Proof.
  remember (length l) as n eqn:E. assert (L : (length l <= n)%nat) by lia. clear E. revert l L.
  induction n as [|n IH]; intros [|x l] L; try reflexivity; try (cbn in L; lia).
  cbn [length] in L. assert (Hl := IH l ltac:(lia)).
  destruct (N.eq_dec x 92) as [->|Nx].
  2: { rewrite unescaped_other by exact Nx. now rewrite !replace_other, Hl by exact Nx. }
  destruct l as [|y r]; [reflexivity|]. cbn [length] in L. assert (Hr := IH r ltac:(lia)).
  destruct (N.eq_dec y 110) as [->|N1].
  { rewrite replace_hit, !(replace_other 92) by discriminate. cbn [unescaped]. now rewrite Hr. }
  rewrite replace_keep by exact N1. destruct (N.eq_dec y 114) as [->|N2].
  { rewrite (replace_other 92 110) by discriminate. rewrite replace_hit, (replace_other 92) by discriminate.
    cbn [unescaped]. now rewrite Hr. }
  destruct (N.eq_dec y 116) as [->|N3].
  { rewrite (replace_other 92 110) by discriminate. rewrite replace_keep by discriminate.
    rewrite (replace_other 92 114) by discriminate. rewrite replace_hit. cbn [unescaped]. now rewrite Hr. }
  assert (U : unescaped (92 :: y :: r) = 92 :: unescaped (y :: r)).
  { change (unescaped (92 :: y :: r)) with
      (if (y =? 110) || (y =? 114) then 13 :: unescaped r else if y =? 116 then 9 :: unescaped r else 92 :: unescaped (y :: r)).
    apply N.eqb_neq in N1, N2, N3. now rewrite N1, N2, N3. }
  rewrite U, <- Hl. destruct (replace_head 92 110 13 y r) as (z & w & E1 & Z1). rewrite E1.
  assert (Nz : z <> 114 /\ z <> 116) by (destruct Z1 as [->|[_ ->]]; split; congruence).
  rewrite replace_keep by tauto. destruct (replace_head 92 114 13 z w) as (z' & w' & E2 & Z2). rewrite E2.
  apply replace_keep. destruct Z2 as [->|[_ ->]]; [tauto|discriminate].
Qed.
Lemma unescaped_plain l : ~ In 92 l -> unescaped l = l.
Proof.
  induction l as [|x l IH]; [reflexivity|]. intros H. rewrite unescaped_other by (intros ->; apply H; now left).
  rewrite IH; [reflexivity|]. intros K. apply H. now right.
Qed.

Lemma type_encoded d l : Forall is_char l -> type_string d (encoded l) = Some (flat_map (type_char d) (unescaped l)).
Proof. intros F. unfold type_string. rewrite utf8_decodes by exact F. now rewrite unescape_passes. Qed.

(** ** Reading strokes *)

Definition press (lay : layout) (m : N) (k : key) (number : option N) : list N * option N :=
  match number with
  | None =>
      if (m =? 9) && match lay k 1 with Some c => c =? 85 | None => false end then ([], Some 0)
      else (match lay k m with Some c => [c] | None => [] end, None)
  | Some v =>
      match lay k m with
      | None => ([], None)
      | Some c =>
          if c =? 32 then ([v], None)
          else match hex_value c with Some x => ([], Some (16 * v + x)) | None => ([], None) end
      end
  end.
Fixpoint presses (lay : layout) (number : option N) (l : list stroke) : list N * option N :=
  match l with
  | [] => ([], number)
  | x :: r =>
      let '(o, n) := press lay (st_mods x) (st_key x) number in
      let '(cs, n) := presses lay n r in (o ++ cs, n)
  end.

Lemma presses_app lay a : forall n b, presses lay n (a ++ b) =
  let '(o, n') := presses lay n a in let '(cs, n'') := presses lay n' b in (o ++ cs, n'').
Proof.
  induction a as [|x a IH]; intros n b; cbn [app presses]; [now destruct (presses lay n b)|].
  destruct (press lay (st_mods x) (st_key x) n) as [o n1]. rewrite IH. destruct (presses lay n1 a) as [o2 n2].
  destruct (presses lay n2 b) as [o3 n3]. now rewrite app_assoc.
Qed.

Lemma reading_press lay held n k r : is_modifier k = false ->
  reading lay held n ((k, true) :: (k, false) :: r) =
  let '(o, n') := press lay (mods_held held) k n in let '(cs, n'') := reading lay held n' r in (o ++ cs, n'').
Proof.
  intros M. cbn [reading]. rewrite M. cbn [negb]. unfold press.
  destruct n as [v|].
  - destruct (lay k (mods_held held)) as [c|]; [|now destruct (reading lay held None r)].
    destruct (c =? 32); [now destruct (reading lay held None r)|].
    destruct (hex_value c); [now destruct (reading lay held (Some _) r)|now destruct (reading lay held None r)].
  - destruct (_ && _); [now destruct (reading lay held (Some 0) r)|].
    destruct (reading lay held None r), (lay k (mods_held held)); reflexivity.
Qed.

(** The modifiers held, as bits *)
Definition rep (held : key -> bool) (m : N) : Prop :=
  held ShiftLeft = has_bits 1 m /\ held AltLeft = has_bits 2 m /\ held AltRight = has_bits 4 m /\
  held ControlLeft = has_bits 8 m /\ held ShiftRight = false /\ held ControlRight = false.
Lemma small_mods (P : N -> Prop) : P 0 -> P 1 -> P 2 -> P 3 -> P 4 -> P 5 -> P 6 -> P 7 -> P 8 -> P 9 -> P 10 -> P 11 ->
  P 12 -> P 13 -> P 14 -> P 15 -> forall m, m < 16 -> P m.
Proof.
  intros. destruct m as [|p]; [assumption|].
  do 4 (destruct p as [p|p|]; try assumption); exfalso; lia.
Qed.
Lemma rep_mods held m : m < 16 -> rep held m -> mods_held held = m.
Proof.
  intros L (A & B & C & D & E & F). unfold mods_held. rewrite A, B, C, D, E, F. rewrite !orb_false_r.
  clear -L. revert m L. apply small_mods; reflexivity.
Qed.

(** The key presses of events, after [replace_logical_keys] *)
Definition keystroke (e : event) : key * bool := (ek e, kstate_eqb (es e) Down).
Definition keystrokes (l : sequence) : list (key * bool) := map keystroke (replace_logical_keys l).
Lemma keystrokes_app a b : keystrokes (a ++ b) = keystrokes a ++ keystrokes b.
Proof. unfold keystrokes, replace_logical_keys. now rewrite !map_app. Qed.

Lemma reading_mods lay n m prev held rest : rep held prev ->
  exists held', rep held' m /\
    reading lay held n (keystrokes (flat_map (type_output_mod m prev) mod_keys) ++ rest) = reading lay held' n rest.
Proof.
  intros (A & B & C & D & E & F). unfold mod_keys, rep. cbn [flat_map]. unfold type_output_mod.
  rewrite <- A, <- B, <- C, <- D.
  destruct (has_bits 1 m), (has_bits 2 m), (has_bits 4 m), (has_bits 8 m), (held ShiftLeft) eqn:E1, (held AltLeft) eqn:E2,
    (held AltRight) eqn:E3, (held ControlLeft) eqn:E4; cbn [xorb app];
    eexists; (split; [|cbn; reflexivity]); cbn; repeat split; assumption.
Qed.
Lemma reading_release lay n prev held : rep held prev ->
  reading lay held n (keystrokes (release_mods Up prev)) = ([], n).
Proof.
  intros _. unfold release_mods, mod_keys. cbn [flat_map fst snd].
  destruct (has_bits 1 prev), (has_bits 2 prev), (has_bits 4 prev), (has_bits 8 prev); reflexivity.
Qed.

Definition good_stroke (x : stroke) : Prop := typing_key (st_key x) /\ st_mods x < 16.
Lemma typing_plain k : typing_key k -> replace_logical_key k = k.
Proof.
  intros [[_ H] _]. unfold replace_logical_key, k_Shift, k_Control, k_Meta.
  repeat match goal with |- context [?a =? ?b] => destruct (N.eqb_spec a b); [exfalso; subst; vm_compute in H; discriminate|] end.
  reflexivity.
Qed.

Lemma reading_output lay l : forall n prev held rest, rep held prev -> Forall good_stroke l ->
  exists held', rep held' (snd (type_output l prev)) /\
    reading lay held n (keystrokes (fst (type_output l prev)) ++ rest) =
    let '(o, n') := presses lay n l in let '(cs, n'') := reading lay held' n' rest in (o ++ cs, n'').
Proof.
  induction l as [|x l IH]; intros n prev held rest R F.
  - exists held. split; [exact R|]. cbn. now destruct (reading lay held n rest).
  - inversion_clear F as [|? ? [Tk Tm] Fl]. cbn [type_output].
    destruct (reading_mods lay n (st_mods x) prev held
      ((st_key x, true) :: (st_key x, false) :: keystrokes (fst (type_output l (st_mods x))) ++ rest) R) as (h & Rh & E).
    pose proof (fun n => IH n (st_mods x) h rest Rh Fl) as IH'.
    destruct (type_output l (st_mods x)) as [sq p]. cbn [fst snd] in *.
    destruct (press lay (st_mods x) (st_key x) n) as [o n1] eqn:P.
    destruct (IH' n1) as (h' & Rh' & E'). exists h'. split; [exact Rh'|].
    rewrite !keystrokes_app, <- !app_assoc.
    assert (K : keystrokes [Ev (st_key x) Down (st_value x); Ev (st_key x) Up (st_value x)] = [(st_key x, true); (st_key x, false)]).
    { unfold keystrokes, keystroke, replace_logical_keys. cbn [map ek es]. rewrite (typing_plain _ Tk). reflexivity. }
    rewrite K. cbn [app]. rewrite E, reading_press by apply Tk. rewrite (rep_mods h _ Tm Rh), P, E'.
    cbn [presses]. rewrite P. destruct (presses lay n1 l) as [o2 n2]. destruct (reading lay h' n2 rest).
    now rewrite app_assoc.
Qed.

(** ** Characters *)

Lemma digit_reads lay v k i : number_keys lay -> nth_error hex_keys i = Some k ->
  press lay 0 k (Some v) = ([], Some (16 * v + N.of_nat i)).
Proof.
  intros (_ & _ & H) Hk. unfold press. rewrite (H i k Hk).
  assert (L : (i < 16)%nat) by (change 16%nat with (length hex_keys); apply nth_error_Some; congruence).
  do 16 (destruct i as [|i]; [reflexivity|]). exfalso. lia.
Qed.

Lemma number_reads lay : number_keys lay -> forall fuel c, c < 16 ^ N.of_nat fuel ->
  presses lay (Some 0) (map (fun k => Stroke k 0 0) (rev (hex_digits fuel c))) = ([], Some c).
Proof.
  intros H. induction fuel as [|fuel IH]; intros c L.
  - cbn in L. assert (c = 0) by lia. now subst.
  - cbn [hex_digits]. destruct (N.eqb_spec c 0) as [->|Nc]; [reflexivity|].
    cbn [rev]. rewrite map_app, presses_app.
    assert (S4 : N.shiftr c 4 = c / 16) by (now rewrite N.shiftr_div_pow2).
    assert (L4 : N.land c 0xF = c mod 16) by (change 0xF with (N.ones 4); now rewrite N.land_ones).
    rewrite S4, L4. rewrite IH.
    2: { rewrite Nat2N.inj_succ, N.pow_succ_r' in L. apply N.div_lt_upper_bound; lia. }
    cbn [map presses st_mods st_key].
    destruct (nth_error hex_keys (N.to_nat (c mod 16))) as [k|] eqn:E.
    + rewrite (nth_error_nth _ _ _ E). rewrite (digit_reads lay _ k _ H E). cbn [app]. do 2 f_equal. rewrite N2Nat.id. dm.
    + exfalso. apply nth_error_None in E. cbn [length hex_keys] in E. assert (c mod 16 < 16) by dm. lia.
Qed.

Lemma char_reads lay d c : number_keys lay \/ d c <> None -> right_for lay d -> c < 0x110000 ->
  presses lay None (type_char d c) = ([c], None).
Proof.
  intros H R L. unfold type_char. destruct (d c) as [e|] eqn:E.
  - destruct (R c e E) as (k & m & -> & Lm & Tk & Hc). cbn [map presses fst snd st_mods st_key].
    unfold press. rewrite Hc. destruct (N.eqb_spec m 9); [exfalso; lia|]. reflexivity.
  - destruct H as [H|H]; [|congruence]. unfold hex_type. cbn [presses st_mods st_key]. unfold press at 1. destruct H as (HU & HS & HD) eqn:EH. clear EH.
    change K_U with 0x16. rewrite HU. cbn [N.eqb Pos.eqb andb]. rewrite presses_app.
    rewrite (number_reads lay (conj HU (conj HS HD)) 8 c); [|eapply N.lt_le_trans; [exact L|vm_compute; discriminate]].
    cbn [presses st_mods st_key]. unfold press. change Space with 0x39. rewrite HS. reflexivity.
Qed.

Lemma chars_read lay d l : (forall c, In c l -> number_keys lay \/ d c <> None) -> right_for lay d ->
  Forall (fun c => c < 0x110000) l -> presses lay None (flat_map (type_char d) l) = (l, None).
Proof.
  intros H R F. revert H. induction F as [|c l Lc _ IH]; intros H; [reflexivity|]. pose proof (H c (or_introl eq_refl)) as Hc.
  specialize (IH (fun x Hx => H x (or_intror Hx))). cbn [flat_map]. rewrite presses_app, char_reads by assumption.
  rewrite IH. reflexivity.
Qed.

Lemma chars_good lay d l : right_for lay d -> Forall good_stroke (flat_map (type_char d) l).
Proof.
  intros R. apply Forall_forall. intros x Hx. apply in_flat_map in Hx. destruct Hx as (c & _ & Hx). revert x Hx.
  apply Forall_forall. unfold type_char. destruct (d c) as [e|] eqn:E.
  - destruct (R c e E) as (k & m & -> & Lm & Tk & _). constructor; [|constructor]. split; [exact Tk|cbn; lia].
  - unfold hex_type. constructor; [repeat split; reflexivity|]. apply Forall_app. split; [|repeat constructor].
    apply Forall_map, Forall_rev. generalize 8%nat. intros f. revert c E. intros c _. revert c.
    induction f as [|f IH]; intros c; cbn [hex_digits]; [constructor|]. destruct (c =? 0); [constructor|]. constructor; [|apply IH].
    assert (B : N.land c 0xF < 16) by (change 0xF with (N.ones 4); rewrite N.land_ones; apply N.mod_lt; discriminate).
    revert B. generalize (N.land c 0xF). apply small_mods; repeat split.
Qed.

(** ** The devices *)

Lemma reading_ext lay l : forall n h h', (forall m, is_modifier m = true -> h m = h' m) -> reading lay h n l = reading lay h' n l.
Proof.
  induction l as [|[k b] l IH]; intros n h h' H; [reflexivity|]. cbn [reading].
  assert (M : mods_held h = mods_held h') by (unfold mods_held; rewrite !H by reflexivity; reflexivity).
  destruct (is_modifier k) eqn:K.
  - apply IH. intros m Hm. destruct (m =? k); auto.
  - rewrite M. rewrite (IH None h h' H). destruct (negb b); [apply IH, H|]. destruct n as [v|].
    + destruct (lay k (mods_held h')) as [c|]; [|reflexivity]. destruct (c =? 32); [reflexivity|].
      destruct (hex_value c); [apply IH, H|reflexivity].
    + destruct (_ && _); [apply IH, H|reflexivity].
Qed.

Definition board_key (k : key) : Prop := 0 < k < 0x200 /\ is_mouse_button k = false /\ is_mouse_wheel k = false.
Lemma modifier_board k : is_modifier k = true -> board_key k.
Proof.
  unfold is_modifier, modifier_keys. cbn [existsb].
  rewrite !orb_true_iff, !N.eqb_eq. intros H.
  repeat destruct H as [H|H]; try discriminate; subst; repeat split.
Qed.
(** The device and the kernel agree on the keys held. *)
Definition agree (s : vdevices) : Prop := forall k, board_key k ->
  existsb (N.eqb k) (vd_down (vs_keyboard s)) = kn_held (kernel_run (vs_log s)) VKeyboard k.
Definition sent_event (e : event) : Prop := board_key (ek e) /\ (es e = Up \/ es e = Down).

Section Devices.
Variable write_ok create_ok : nat -> bool.
Hypothesis writes : forall n, write_ok n = true.

Lemma agree_run l : Forall loop_call l -> (forall k, k < 0x200 -> Forall (stroke_call k) l) ->
  agree (vrun write_ok create_ok l new_vdevices).
Proof.
  intros F1 F2 k ([R0 R] & B & W). destruct (keyed_run write_ok create_ok writes k l (conj R0 R) B W F1 (F2 k R)) as [H D].
  now rewrite D, H.
Qed.

Lemma target_board k s : board_key k -> target k s = VKeyboard.
Proof. intros (_ & B & W). unfold target. rewrite B, W. now destruct (vs_last s). Qed.

Lemma board_not_syn k v : announces keyboard_desc (IE EV_KEY k v) = existsb (N.eqb k) (d_keys keyboard_desc).
Proof. reflexivity. Qed.

Lemma send_board e s : sent_event e -> agree s -> let s' := vstep write_ok create_ok (VSend e) s in
  agree s' /\ exists t, kn_delivered (kernel_run (vs_log s')) = kn_delivered (kernel_run (vs_log s)) ++ t /\
  (forall k, kn_held (kernel_run (vs_log s')) VKeyboard k = if k =? ek e then kstate_eqb (es e) Down
                                                            else kn_held (kernel_run (vs_log s)) VKeyboard k) /\
  strokes_of t = if negb (kstate_eqb (es e) Down) && negb (kn_held (kernel_run (vs_log s)) VKeyboard (ek e)) then []
                 else [keystroke e].
Proof.
  intros [Kb St] Ag. cbn [vstep].
  assert (W : is_mouse_wheel (ek e) = false) by apply Kb.
  pose proof (send_key write_ok writes e s W) as Q. cbn zeta in Q. rewrite (target_board _ s Kb) in Q.
  cbn [get_vdevice put_vdevice] in Q. destruct (update_key_state e (vs_keyboard s)) as [v x] eqn:U.
  cbn zeta. rewrite Q. clear Q. unfold vlog. cbn [vs_log vs_keyboard vs_forward vs_devices vs_last vs_ub].
  rewrite !kernel_snoc.
  set (K := kernel_run (vs_log s)) in *.
  assert (KD : kn_desc K VKeyboard = Some keyboard_desc) by apply keyboard_always.
  assert (An : announces keyboard_desc (IE EV_KEY (ek e) v) = true) by (apply keyboard_announces, Kb).
  pose proof (Ag (ek e) Kb) as Ae. fold K in Ae.
  unfold update_key_state in U. rewrite Ae in U.
  assert (H1 : kernel_step (kernel_step K (WEvent VKeyboard (IE EV_KEY (ek e) v) true)) (WEvent VKeyboard syn true) =
    Kernel (kn_desc K) (kn_held (kernel_step K (WEvent VKeyboard (IE EV_KEY (ek e) v) true)))
      (kn_delivered (kernel_step K (WEvent VKeyboard (IE EV_KEY (ek e) v) true)) ++ [(VKeyboard, syn)])).
  { cbn [kernel_step]. rewrite KD, An. cbn [andb kn_desc]. rewrite KD. reflexivity. }
  rewrite H1. cbn [kernel_step kn_held kn_delivered]. rewrite KD, An. cbn [andb kn_held kn_delivered ie_type ie_code ie_value].
  change (EV_KEY =? EV_KEY) with true. change (vid_eqb VKeyboard VKeyboard) with true. cbn [andb].
  assert (Held : forall k, (if (k =? ek e) && negb (Z.eqb v 2) then negb (Z.eqb v 0) else kn_held K VKeyboard k) =
    if k =? ek e then kstate_eqb (es e) Down else kn_held K VKeyboard k).
  { intros k. destruct (N.eqb_spec k (ek e)) as [->|]; [|reflexivity]. cbn [andb].
    destruct St as [St|St]; rewrite St in *; cbn [kstate_eqb] in *.
    - injection U as <- <-. reflexivity.
    - destruct (kn_held K VKeyboard (ek e)) eqn:Hk; injection U as <- <-; reflexivity. }
  split.
  - intros k Hk. cbn [vs_keyboard vs_log].
    rewrite !kernel_snoc. fold K. rewrite H1. cbn [kernel_step kn_held]. rewrite KD, An. cbn [andb kn_held ie_type ie_code ie_value].
    change (EV_KEY =? EV_KEY) with true. change (vid_eqb VKeyboard VKeyboard) with true. cbn [andb]. rewrite Held.
    specialize (Ag k Hk). destruct St as [St|St]; rewrite St in *; cbn [kstate_eqb] in *.
    + injection U as <- <-. destruct (kn_held K VKeyboard (ek e)) eqn:He; cbn [vd_down].
      * rewrite existsb_remove, Ag. fold K. destruct (k =? ek e); cbn [negb]; [now rewrite andb_false_r|now rewrite andb_true_r].
      * rewrite Ag. fold K. destruct (N.eqb_spec k (ek e)); [now subst|reflexivity].
    + destruct (kn_held K VKeyboard (ek e)) eqn:He; injection U as <- <-; cbn [vd_down].
      * rewrite Ag. fold K. destruct (N.eqb_spec k (ek e)); [now subst|reflexivity].
      * rewrite existsb_snoc, Ag. fold K. destruct (k =? ek e); [apply orb_true_r|apply orb_false_r].
  - eexists. split; [rewrite <- app_assoc; reflexivity|]. split; [exact Held|].
    unfold strokes_of. rewrite flat_map_app. cbn [flat_map fst snd ie_type syn app].
    change (EV_SYN =? EV_KEY) with false. cbn [app].
    destruct St as [St|St]; rewrite St in *; cbn [kstate_eqb negb andb] in *.
    + injection U as <- <-. cbn [Z.eqb negb andb]. destruct (kn_held K VKeyboard (ek e)); cbn; rewrite ?St; reflexivity || (unfold keystroke; rewrite St; reflexivity).
    + destruct (kn_held K VKeyboard (ek e)); injection U as <- <-; cbn; unfold keystroke; rewrite St; reflexivity.
Qed.

Lemma send_any s : agree s -> let s' := vstep write_ok create_ok (VSend (ev0 k_any Not)) s in
  agree s' /\ exists t, kn_delivered (kernel_run (vs_log s')) = kn_delivered (kernel_run (vs_log s)) ++ t /\
  (forall k, kn_held (kernel_run (vs_log s')) VKeyboard k = kn_held (kernel_run (vs_log s)) VKeyboard k) /\ strokes_of t = [].
Proof.
  intros Ag. cbn [vstep]. pose proof (send_key write_ok writes (ev0 k_any Not) s eq_refl) as Q. cbn zeta in Q.
  assert (Tg : target (ek (ev0 k_any Not)) s = VKeyboard) by (unfold target; now destruct (vs_last s)).
  rewrite Tg in Q. cbn [get_vdevice put_vdevice] in Q.
  destruct (update_key_state (ev0 k_any Not) (vs_keyboard s)) as [v x] eqn:U. cbn zeta. rewrite Q. clear Q.
  unfold vlog. cbn [vs_log vs_keyboard vs_forward vs_devices vs_last vs_ub]. rewrite !kernel_snoc.
  set (K := kernel_run (vs_log s)) in *.
  assert (KD : kn_desc K VKeyboard = Some keyboard_desc) by apply keyboard_always.
  assert (H1 : kernel_step K (WEvent VKeyboard (IE EV_KEY (ek (ev0 k_any Not)) v) true) = K).
  { cbn [kernel_step]. rewrite KD. reflexivity. }
  assert (H2 : kernel_step K (WEvent VKeyboard syn true) = Kernel (kn_desc K) (kn_held K) (kn_delivered K ++ [(VKeyboard, syn)])).
  { cbn [kernel_step]. rewrite KD. reflexivity. }
  rewrite H1, H2. cbn [kn_held kn_delivered]. split.
  - intros k Hk. cbn [vs_keyboard vs_log]. rewrite !kernel_snoc. fold K. rewrite H1, H2. cbn [kn_held].
    unfold K; rewrite <- (Ag k Hk). assert (Nk : (k =? k_any) = false).
    { apply N.eqb_neq. intros ->. destruct Hk as [[_ R] _]. vm_compute in R. discriminate. }
    unfold update_key_state in U. cbn [es ev0 kstate_eqb ek] in U.
    destruct (existsb (N.eqb k_any) (vd_down (vs_keyboard s))); injection U as <- <-; [reflexivity|].
    cbn [vd_down]. rewrite existsb_snoc, Nk. apply orb_false_r.
  - eexists. split; [reflexivity|]. split; reflexivity.
Qed.

Lemma devices_read lay l : forall s held n, agree s -> Forall sent_event l ->
  (forall m, is_modifier m = true -> held m = kn_held (kernel_run (vs_log s)) VKeyboard m) ->
  let s' := vrun write_ok create_ok (map VSend l) s in
  agree s' /\ exists t, kn_delivered (kernel_run (vs_log s')) = kn_delivered (kernel_run (vs_log s)) ++ t /\
    reading lay held n (strokes_of t) = reading lay held n (map keystroke l).
Proof.
  induction l as [|e l IH]; intros s held n Ag F M; cbn zeta.
  - split; [exact Ag|]. exists []. split; [symmetry; apply app_nil_r|reflexivity].
  - inversion_clear F as [|? ? Fe Fl]. cbn [map]. unfold vrun. cbn [fold_left]. fold (vrun write_ok create_ok (map VSend l)).
    destruct (send_board e s Fe Ag) as (Ag1 & t1 & D1 & H1 & S1).
    assert (G : forall held n, (forall m, is_modifier m = true ->
        held m = kn_held (kernel_run (vs_log (vstep write_ok create_ok (VSend e) s))) VKeyboard m) ->
      let s' := vrun write_ok create_ok (map VSend l) (vstep write_ok create_ok (VSend e) s) in
      agree s' /\ exists t, kn_delivered (kernel_run (vs_log s')) =
        kn_delivered (kernel_run (vs_log (vstep write_ok create_ok (VSend e) s))) ++ t /\
        reading lay held n (strokes_of t) = reading lay held n (map keystroke l)) by (intros; now apply IH).
    set (s1 := vstep write_ok create_ok (VSend e) s) in *.
    destruct (G (fun k => kn_held (kernel_run (vs_log s1)) VKeyboard k) n (fun _ _ => eq_refl)) as (Ag2 & t2 & D2 & _).
    change (fold_left (fun s0 c => vstep write_ok create_ok c s0) (map VSend l) s1)
      with (vrun write_ok create_ok (map VSend l) s1).
    split; [exact Ag2|]. exists (t1 ++ t2). split; [rewrite D2, D1; now rewrite app_assoc|].
    assert (R : forall held n, (forall m, is_modifier m = true -> held m = kn_held (kernel_run (vs_log s1)) VKeyboard m) ->
      reading lay held n (strokes_of t2) = reading lay held n (map keystroke l)).
    { intros h n' Hm. destruct (G h n' Hm) as (_ & t & D & E). rewrite D in D2. apply app_inv_head in D2. now subst t. }
    unfold strokes_of in *. rewrite flat_map_app, S1. clear G D1 D2 Ag1 Ag2.
    assert (M1 : forall m, is_modifier m = true -> (if m =? ek e then kstate_eqb (es e) Down else held m) =
                 kn_held (kernel_run (vs_log s1)) VKeyboard m).
    { intros m Hm. rewrite H1. destruct (m =? ek e); auto. }
    destruct (negb (kstate_eqb (es e) Down) && negb (kn_held (kernel_run (vs_log s)) VKeyboard (ek e))) eqn:Dr.
    + apply andb_prop in Dr. destruct Dr as [Dr1 Dr2]. apply negb_true_iff in Dr1, Dr2. cbn [app].
      rewrite R. 2: { intros m Hm. rewrite H1, (M m Hm). destruct (N.eqb_spec m (ek e)) as [->|]; congruence. }
      change (keystroke e) with (ek e, kstate_eqb (es e) Down). cbn [reading]. rewrite Dr1. cbn [negb].
      destruct (is_modifier (ek e)) eqn:Im; [|reflexivity].
      apply reading_ext. intros m Hm. destruct (N.eqb_spec m (ek e)) as [->|]; [now rewrite (M _ Hm)|reflexivity].
    + change (keystroke e) with (ek e, kstate_eqb (es e) Down). cbn [app reading].
      destruct (is_modifier (ek e)) eqn:Im.
      * apply R. exact M1.
      * assert (M2 : forall m, is_modifier m = true -> held m = kn_held (kernel_run (vs_log s1)) VKeyboard m).
        { intros m Hm. rewrite <- (M1 m Hm). destruct (N.eqb_spec m (ek e)); [congruence|reflexivity]. }
        rewrite !(R _ None M2). destruct (negb (kstate_eqb (es e) Down)); [apply R, M2|]. destruct n as [v|].
        -- destruct (lay (ek e) (mods_held held)) as [c|]; [|reflexivity]. destruct (c =? 32); [reflexivity|].
           destruct (hex_value c); [apply R, M2|reflexivity].
        -- destruct ((mods_held held =? 9) && _); [apply R, M2|reflexivity].
Qed.
End Devices.

(** ** The sequence which is injected *)

Definition up (e : event) : Prop := es e = Up.


Lemma drop_ups l : exists r, l = r ++ drop_state Up l /\ Forall up r.
Proof.
  induction l as [|e l (r & E & F)]; [exists []; split; [reflexivity|constructor]|]. cbn [drop_state].
  destruct (kstate_eqb (es e) Up) eqn:S; [|exists []; split; [reflexivity|constructor]].
  exists (e :: r). split; [cbn [app]; now rewrite <- E|]. constructor; [|exact F]. unfold up. now destruct (es e).
Qed.
Lemma remove_ups l : exists r, l = remove_all_from_end Up l ++ r /\ Forall up r.
Proof.
  unfold remove_all_from_end. destruct (drop_ups (rev l)) as (r & E & F). exists (rev r). split; [|now apply Forall_rev].
  rewrite <- rev_app_distr, <- E. symmetry. apply rev_involutive.
Qed.

Lemma flush_flat sq hm : flush_key_buffer false true (PS [] [] [] sq [] false false false 0 hm) =
  PS [] [] [] sq [] false false false 0 hm.
Proof. unfold flush_key_buffer. cbn [p_buffer map p_seq p_set_seq]. unfold p_set_seq, p_set_pressed, p_set_buffer. cbn [p_pressed p_before p_seq p_cmds p_nmm p_onrel p_together p_modified p_hasmod p_buffer fold_left]. now rewrite !app_nil_r. Qed.
Lemma end_flat sq hm : parse_end false (PS [] [] [] sq [] false false false 0 hm) =
  check_context_active false (if negb hm && all_pressed_at_once sq then remove_all_from_end Up sq else sq).
Proof.
  change (parse_end false (PS [] [] [] sq [] false false false 0 hm)) with
    (let p := PS [] [] [] (sq ++ []) [] false false false 0 hm in
     let p := if negb hm && all_pressed_at_once (sq ++ []) then p_set_seq (remove_all_from_end Up (sq ++ [])) p else p in
     if p_nmm p && has_virtual_key (p_seq p) then PErr else check_context_active false (p_seq p)).
  cbv zeta. rewrite app_nil_r. destruct (negb hm && all_pressed_at_once sq); reflexivity.
Qed.

Lemma parse_quoted typer t : ~ In """"%char t -> existsb (fun e => ek e =? k_ContextActive) (string_output false (typer t)) = false ->
  exists l r, parse_sequence false get_key_by_name typer None (quoted t) = POk (l, []) /\
    string_output false (typer t) = l ++ r /\ Forall up r.
Proof.
  intros Nq Nc. unfold parse_sequence, quoted. set (n := length (T """" ++ t ++ T """")).
  assert (Ln : exists n', n = S n') by (exists (length (t ++ T """")); reflexivity). destruct Ln as [n' ->].
  change (T """" ++ t ++ T """") with (""""%char :: t ++ [""""%char]). cbn [parse_loop].
  change (skip_space (""""%char :: t ++ [""""%char])) with (""""%char :: t ++ [""""%char]).
  assert (P : parse_step false get_key_by_name typer None (""""%char :: t ++ [""""%char]) p_init =
    POk (Continue [] (PS [] [] [] (string_output false (typer t)) [] false false false 0 (strokes_have_modifier (typer t))))).
  { unfold parse_step. change (Ascii.eqb """" "!") with false. change (is_quote """") with true. cbn [andb].
    unfold parse_string. cbn [p_together p_init]. rewrite skip_until_char by exact Nq.
    assert (B : before (t ++ [""""%char]) [] = t ++ [""""%char]).
    { rewrite <- (app_nil_r (t ++ [""""%char])) at 1. apply before_app. }
    rewrite B, removelast_last. reflexivity. }
  rewrite P. clear P.
  change (parse_step false get_key_by_name typer None (skip_space [])
    (PS [] [] [] (string_output false (typer t)) [] false false false 0 (strokes_have_modifier (typer t))))
    with (POk (Break (flush_key_buffer false true
      (PS [] [] [] (string_output false (typer t)) [] false false false 0 (strokes_have_modifier (typer t)))))).
  rewrite flush_flat. cbv beta iota. rewrite end_flat. unfold check_context_active. cbn [p_cmds].
  destruct (negb (strokes_have_modifier (typer t)) && all_pressed_at_once (string_output false (typer t))).
  - destruct (remove_ups (string_output false (typer t))) as (r & E & F).
    assert (Nc' : existsb (fun e => ek e =? k_ContextActive) (remove_all_from_end Up (string_output false (typer t))) = false).
    { rewrite E, existsb_app in Nc. now apply orb_false_iff in Nc. }
    rewrite Nc'. eexists _, r. split; [reflexivity|]. split; [exact E|exact F].
  - rewrite Nc. eexists _, []. split; [reflexivity|]. split; [symmetry; apply app_nil_r|constructor].
Qed.

Lemma reading_ups lay a : forall held n r, Forall (fun x : key * bool => snd x = false) r ->
  reading lay held n (a ++ r) = reading lay held n a.
Proof.
  induction a as [|[k b] a IH]; intros held n r F.
  - cbn [app reading]. revert held. induction F as [|[k b] r Fb F IH]; intros held; [reflexivity|]. cbn in Fb. subst b.
    cbn [reading negb]. destruct (is_modifier k); apply IH.
  - cbn [app reading]. rewrite !(IH held None) by exact F. destruct (is_modifier k); [now apply IH|]. destruct (negb b); [now apply IH|].
    destruct n as [v|].
    + destruct (lay k (mods_held held)) as [c|]; [|reflexivity]. destruct (c =? 32); [reflexivity|].
      destruct (hex_value c); [now apply IH|reflexivity].
    + destruct ((mods_held held =? 9) && _); [now apply IH|reflexivity].
Qed.

(** All events of a typed text but the first are presses and releases of keys of the
    keyboard. *)
Lemma mod_events (f : event -> Prop) m prev : f (ev0 k_Shift Down) -> f (ev0 k_Shift Up) -> f (ev0 AltLeft Down) -> f (ev0 AltLeft Up) ->
  f (ev0 AltRight Down) -> f (ev0 AltRight Up) -> f (ev0 k_Control Down) -> f (ev0 k_Control Up) ->
  Forall f (flat_map (type_output_mod m prev) mod_keys) /\ Forall f (release_mods Up prev).
Proof.
  intros. split.
  - unfold mod_keys, type_output_mod. cbn [flat_map]. rewrite !Forall_app, app_nil_r || rewrite !Forall_app.
    repeat split; try (match goal with |- Forall _ (if ?a then [ev0 _ (if ?b then _ else _)] else _) => destruct a, b end); repeat constructor; assumption.
  - unfold release_mods, mod_keys. cbn [flat_map fst snd]. rewrite !Forall_app.
    repeat split; try (match goal with |- Forall _ (if ?a then _ else _) => destruct a end); repeat constructor; assumption.
Qed.
Definition replaced (e : event) : event := Ev (replace_logical_key (ek e)) (es e) (ev e).
Lemma output_events l : Forall good_stroke l -> forall prev,
  Forall (fun e => sent_event (replaced e) /\ ek e <> k_ContextActive) (fst (type_output l prev)).
Proof.
  assert (M : forall m prev, Forall (fun e => sent_event (replaced e) /\ ek e <> k_ContextActive) (flat_map (type_output_mod m prev) mod_keys)).
  { intros. apply mod_events; (split; [split; [repeat split|cbn; auto]|discriminate]). }
  induction 1 as [|x l [Hx _] F IH]; intros prev; cbn [type_output]; [constructor|].
  specialize (IH (st_mods x)). destruct (type_output l (st_mods x)) as [sq p]. cbn [fst] in *.
  apply Forall_app. split; [apply M|].
  assert (Q : forall st v, st = Up \/ st = Down -> sent_event (replaced (Ev (st_key x) st v)) /\ st_key x <> k_ContextActive).
  { intros st v Hs. split.
    - unfold replaced. cbn [ek es ev]. rewrite typing_plain by exact Hx. split; [|exact Hs]. destruct Hx as (A & B & C & _). repeat split; tauto.
    - intros E. rewrite E in Hx. destruct Hx as ((_ & H) & _). vm_compute in H. discriminate. }
  constructor; [apply Q; auto|]. constructor; [apply Q; auto|exact IH].
Qed.
Lemma string_events l : Forall good_stroke l -> exists r, string_output false l = ev0 k_any Not :: r /\
  Forall (fun e => sent_event (replaced e) /\ ek e <> k_ContextActive) r /\
  r = fst (type_output l 0) ++ release_mods Up (snd (type_output l 0)).
Proof.
  intros F. unfold string_output. pose proof (output_events l F 0) as H.
  destruct (type_output l 0) as [sq p]. cbn [app fst snd] in *. eexists. split; [reflexivity|]. split; [|reflexivity].
  apply Forall_app. split; [exact H|]. apply (mod_events _ 0); (split; [split; [repeat split|cbn; auto]|discriminate]).
Qed.

(** What is injected for a typed text: something without effect, then the strokes. *)
Lemma injected_strokes typer lay t : ~ In """"%char t -> Forall good_stroke (typer t) ->
  exists r, parse_injected typer (quoted t) = Some (ev0 k_any Not :: r) /\ Forall sent_event r /\
    reading lay (fun _ => false) None (map keystroke r) = presses lay None (typer t).
Proof.
  intros Nq F. destruct (string_events _ F) as (s & E & Fs & Es).
  assert (Nc : existsb (fun e => ek e =? k_ContextActive) (string_output false (typer t)) = false).
  { rewrite E. cbn [existsb]. change (ek (ev0 k_any Not) =? k_ContextActive) with false. cbn [orb].
    clear -Fs. induction Fs as [|e s [_ H] Fs IH]; [reflexivity|]. cbn [existsb]. apply N.eqb_neq in H. now rewrite H. }
  destruct (parse_quoted typer t Nq Nc) as (l & u & P & El & Fu). unfold parse_injected. rewrite P.
  rewrite E in El. destruct l as [|x l].
  { cbn [app] in El. subst u. apply Forall_inv in Fu. discriminate Fu. }
  injection El as <- El. destruct (ensure_appends (replace_logical_keys (ev0 k_any Not :: l))) as (w & Ew & _ & Fw).
  rewrite Ew. change (replace_logical_keys (ev0 k_any Not :: l)) with (ev0 k_any Not :: replace_logical_keys l) in *.
  assert (Fl : Forall sent_event (replace_logical_keys l)).
  { rewrite El in Fs. apply Forall_app in Fs. destruct Fs as [Fs _]. unfold replace_logical_keys. apply Forall_map.
    eapply Forall_impl; [|exact Fs]. intros e [H _]. exact H. }
  exists (replace_logical_keys l ++ w). split; [reflexivity|]. split.
  - apply Forall_app. split; [exact Fl|]. apply Forall_forall. intros e He. rewrite Forall_forall in Fw.
    destruct (Fw e He) as [He1 He2]. split; [|left; rewrite He1; reflexivity].
    (* the key was pressed *)
    assert (Ex : exists x, In x (replace_logical_keys l) /\ ek x = ek e).
    { destruct (existsb (fun x => ek x =? ek e) (replace_logical_keys l)) eqn:B.
      - apply existsb_exists in B. destruct B as (x & Hx & Ex). apply N.eqb_eq in Ex. eauto.
      - exfalso. assert (Pa : forall l' b, existsb (fun x => ek x =? ek e) l' = false ->
            fold_left (fun b x => if N.eqb (ek x) (ek e) then match es x with Down => true | Up => false | _ => b end else b) l' b = b).
        { clear. induction l' as [|x l' IH]; intros b H; [reflexivity|]. cbn [existsb] in H. apply orb_false_iff in H.
          destruct H as [H1 H2]. cbn [fold_left]. rewrite H1. now apply IH. }
        unfold pressed_after in He2. cbn [fold_left] in He2.
        match type of He2 with fold_left ?f _ (if ?c then _ else _) = true => destruct c end;
        cbn [es ev0] in He2; rewrite Pa in He2 by exact B; discriminate. }
    destruct Ex as (x & Hx & Ex). rewrite Forall_forall in Fl. destruct (Fl x Hx) as [Hk _]. now rewrite <- Ex.
  - rewrite map_app, reading_ups.
    2: { apply Forall_map. eapply Forall_impl; [|exact Fw]. intros e [He _]. rewrite He. reflexivity. }
    destruct (reading_output lay (typer t) None 0 (fun _ => false) (keystrokes (release_mods Up (snd (type_output (typer t) 0))))) as (h & Rh & Q);
      [repeat split|exact F|].
    rewrite <- keystrokes_app, <- Es, El, keystrokes_app in Q. unfold keystrokes in Q at 1 2.
    rewrite reading_ups in Q.
    2: { unfold replace_logical_keys. apply Forall_map, Forall_map. eapply Forall_impl; [|exact Fu]. intros e He. unfold up in He. cbn. now rewrite He. }
    rewrite Q. destruct (presses lay None (typer t)) as [o n']. rewrite (reading_release lay n' _ _ Rh). now rewrite app_nil_r.
Qed.
