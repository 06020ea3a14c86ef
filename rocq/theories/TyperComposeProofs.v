(** Texts typed with composed characters (C58). *)
From Coq Require Import String Ascii List Arith NArith ZArith Bool Lia.
From Verif Require Import Base Key Text ParseSeq MultiStage Server ServerSpec Client.
From Verif Require Import Device DeviceSpec DeviceProofs Typer TyperSpec TyperProofs TyperServer TyperXkb TyperComposeSpec.
Import ListNotations.
Local Open Scope N_scope.

(** ** The keys pressed *)

(** A layout on which each key and modifiers are a character of their own, so that texts
    are lists of keys pressed *)
Definition code_layout : layout := fun k m => Some (1000 + 16 * k + m).
Definition coded (x : key * N) : N := 1000 + 16 * fst x + snd x.

Lemma code_press m k : press code_layout m k None = ([coded (k, m)], None).
Proof.
  unfold press, code_layout. destruct (N.eqb_spec (1000 + 16 * k + 1) 85) as [Q|Q]; [exfalso; lia|].
  rewrite andb_false_r. reflexivity.
Qed.
Lemma code_presses l : presses code_layout None l = (map (fun x => coded (st_key x, st_mods x)) l, None).
Proof.
  induction l as [|x l IH]; [reflexivity|]. cbn [presses]. rewrite code_press, IH. reflexivity.
Qed.
Lemma code_reading l : forall held, reading code_layout held None l = (map coded (pressed held l), None).
Proof.
  induction l as [|[k b] l IH]; intros held; [reflexivity|]. cbn [reading pressed]. destruct (is_modifier k); [apply IH|].
  destruct b; cbn [negb]; [|apply IH]. unfold code_layout at 1 3.
  destruct (N.eqb_spec (1000 + 16 * k + 1) 85) as [Q|Q]; [exfalso; lia|].
  rewrite andb_false_r, IH. reflexivity.
Qed.
Lemma mods_small held : mods_held held < 16.
Proof.
  unfold mods_held. destruct (held ShiftLeft || held ShiftRight), (held AltLeft), (held AltRight), (held ControlLeft || held ControlRight); reflexivity.
Qed.
Lemma pressed_small l : forall held, Forall (fun x : key * N => snd x < 16) (pressed held l).
Proof.
  induction l as [|[k b] l IH]; intros held; cbn [pressed]; [constructor|]. destruct (is_modifier k); [apply IH|].
  destruct b; [|apply IH]. constructor; [apply mods_small|apply IH].
Qed.
Lemma coded_inj a b : snd a < 16 -> snd b < 16 -> coded a = coded b -> a = b.
Proof. destruct a as [k m], b as [k' m']. unfold coded. cbn [fst snd]. intros A B Q. assert (k = k') by lia. assert (m = m') by lia. now subst. Qed.
Lemma coded_map a : forall b, Forall (fun x : key * N => snd x < 16) a -> Forall (fun x : key * N => snd x < 16) b ->
  map coded a = map coded b -> a = b.
Proof.
  induction a as [|x a IH]; intros [|y b] Fa Fb H; try discriminate H; [reflexivity|].
  cbn in H. injection H as H1 H2. inversion_clear Fa. inversion_clear Fb. f_equal; [now apply coded_inj|now apply IH].
Qed.

Definition stroke_of (x : stroke) : key * N := (st_key x, st_mods x).

Lemma unescaped_chars l : Forall is_char l -> Forall (fun c => c < 0x110000) (unescaped l).
Proof.
  remember (length l) as n eqn:E. assert (L : (length l <= n)%nat) by lia. clear E. revert l L.
  induction n as [|n IH]; intros [|x l] L F; try constructor; try (cbn in L; lia).
  cbn [length] in L. inversion_clear F as [|? ? Fx Fl].
  assert (Gx : x < 0x110000) by (unfold is_char in Fx; lia).
  destruct (N.eq_dec x 92) as [->|Nx].
  - destruct l as [|y l]; [constructor; [reflexivity|constructor]|]. inversion_clear Fl as [|? ? Fy Fl2]. cbn [length] in L.
    change (unescaped (92 :: y :: l)) with (if (y =? 110) || (y =? 114) then 13 :: unescaped l
      else if y =? 116 then 9 :: unescaped l else 92 :: unescaped (y :: l)).
    destruct ((y =? 110) || (y =? 114)); [constructor; [reflexivity|apply IH; [lia|assumption]]|].
    destruct (y =? 116); [constructor; [reflexivity|apply IH; [lia|assumption]]|].
    constructor; [reflexivity|]. apply IH; [cbn; lia|]. constructor; assumption.
  - rewrite unescaped_other by exact Nx. constructor; [exact Gx|]. apply IH; [lia|assumption].
Qed.

Section Typed.
Variable write_ok create_ok send_ok : nat -> bool.
Variable clock : nat -> Z.
Hypothesis writes : forall n, write_ok n = true.
Hypothesis sends_ok : forall n, send_ok n = true.

(** What is typed arrives as these keys, pressed with these modifiers, in order. *)
Theorem typed_keys d cs typer s calls :
  Forall good_stroke (flat_map (type_char d) (unescaped cs)) -> Forall is_char cs -> ~ In 34 cs ->
  type_string d (encoded cs) = Some (typer (encoded cs)) ->
  sv_buf s = [] -> sv_sending s = false ->
  Forall loop_call calls -> (forall k, k < 0x200 -> Forall (stroke_call k) calls) ->
  (forall m, is_modifier m = true -> holds m calls = false) ->
  let before := kn_delivered (kernel_run (vs_log (vrun write_ok create_ok calls new_vdevices))) in
  exists l, parse_injected typer (quoted (encoded cs)) = Some l /\
    delivered (sv_trace (server_run clock send_ok [SMessage (MInjectOutput l); SFlush] s)) = delivered (sv_trace s) ++ l /\
    exists t, kn_delivered (kernel_run (vs_log (vrun write_ok create_ok (calls ++ map VSend l) new_vdevices))) = before ++ t /\
      pressed (fun _ => false) (strokes_of t) = map stroke_of (flat_map (type_char d) (unescaped cs)).
Proof.
  intros G Fc Nq Ty Sb Ss LC SC HM before.
  rewrite type_encoded in Ty by exact Fc. injection Ty as Ty.
  assert (Nq' : ~ In """"%char (encoded cs)).
  { intros H. apply Nq. apply (encoded_byte cs 34); [exact Fc|reflexivity|]. exact H. }
  rewrite Ty in G |- *.
  destruct (injected_strokes typer code_layout (encoded cs) Nq' G) as (r & P & Fr & Rd).
  exists (ev0 k_any Not :: r). split; [exact P|]. split.
  - apply inject_delivers; auto. constructor; [repeat split; discriminate|]. eapply Forall_impl; [|exact Fr]. apply sent_plain.
  - pose proof (agree_run write_ok create_ok writes calls LC SC) as Ag.
    assert (Hm : forall m, is_modifier m = true -> kn_held (kernel_run (vs_log (vrun write_ok create_ok calls new_vdevices))) VKeyboard m = false).
    { intros m Im. destruct (modifier_board m Im) as ((R0 & R) & B & W).
      destruct (keyed_run write_ok create_ok writes m calls (conj R0 R) B W LC (SC m R)) as [H _]. rewrite H, (HM m Im). reflexivity. }
    unfold before. clear before. cbn [map]. set (s0 := vrun write_ok create_ok calls new_vdevices) in *.
    assert (E : vrun write_ok create_ok (calls ++ VSend (ev0 k_any Not) :: map VSend r) new_vdevices =
      vrun write_ok create_ok (map VSend r) (vstep write_ok create_ok (VSend (ev0 k_any Not)) s0)).
    { unfold s0, vrun. now rewrite fold_left_app. }
    rewrite E. destruct (send_any write_ok create_ok writes s0 Ag) as (Ag1 & t1 & D1 & H1 & S1).
    set (s1 := vstep write_ok create_ok (VSend (ev0 k_any Not)) s0) in *.
    destruct (devices_read write_ok create_ok writes code_layout r s1 (fun _ => false) None Ag1 Fr) as (_ & t2 & D2 & Rd2).
    { intros m Im. rewrite H1, (Hm m Im). reflexivity. }
    exists (t1 ++ t2). split; [rewrite D2, D1; now rewrite app_assoc|].
    unfold strokes_of in *. rewrite flat_map_app, S1. cbn [app].
    rewrite Rd, code_presses, code_reading in Rd2. injection Rd2 as Rd2.
    apply coded_map; [apply pressed_small| |rewrite Rd2, map_map; reflexivity].
    apply Forall_map. eapply Forall_impl; [|exact G]. intros x [_ H]. exact H.
Qed.
End Typed.

(** ** Composing *)

Section Compose.
Variable char_of : N -> N.
Variable table : compose_table.
Variable lay : symbols.
Notation composed := (composed char_of table lay).

Lemma composed_app a : forall st b, composed st (a ++ b) =
  let '(o, st') := composed st a in let '(cs, st'') := composed st' b in (o ++ cs, st'').
Proof.
  induction a as [|x a IH]; intros st b; cbn [app TyperComposeSpec.composed]; [now destruct (composed st b)|].
  destruct (enter char_of table lay x st) as [o st1]. rewrite IH. destruct (composed st1 a) as [o2 st2].
  destruct (composed st2 b) as [o3 st3]. now rewrite app_assoc.
Qed.

(** The number of a character, entered *)
Lemma char_some k m c : char_layout char_of lay k m = Some c -> exists s, lay k m = Some s /\ char_of s = c.
Proof. unfold char_layout. destruct (lay k m) as [s|]; [|discriminate]. destruct (char_of s =? 0); [discriminate|]. intros [= <-]. eauto. Qed.

Lemma number_composed : number_keys (char_layout char_of lay) -> forall fuel c, c < 16 ^ N.of_nat fuel ->
  composed (Number 0) (map stroke_of (map (fun k => Stroke k 0 0) (rev (hex_digits fuel c)))) = ([], Number c).
Proof.
  intros (HU & HS & H). induction fuel as [|fuel IH]; intros c L.
  - cbn in L. assert (c = 0) by lia. now subst.
  - cbn [hex_digits]. destruct (N.eqb_spec c 0) as [->|Nc]; [reflexivity|].
    cbn [rev]. rewrite !map_app, composed_app.
    assert (S4 : N.shiftr c 4 = c / 16) by (now rewrite N.shiftr_div_pow2).
    assert (L4 : N.land c 0xF = c mod 16) by (change 0xF with (N.ones 4); now rewrite N.land_ones).
    assert (M : c mod 16 < 16) by (apply N.mod_lt; discriminate).
    pose proof (N.div_mod c 16 ltac:(discriminate)) as DM.
    rewrite S4, L4. rewrite IH.
    2: { rewrite Nat2N.inj_succ, N.pow_succ_r' in L. apply N.div_lt_upper_bound; lia. }
    cbn [map TyperComposeSpec.composed stroke_of st_mods st_key].
    destruct (nth_error hex_keys (N.to_nat (c mod 16))) as [k|] eqn:E.
    + rewrite (nth_error_nth _ _ _ E). pose proof (H _ _ E) as Hk. rewrite N2Nat.id in Hk.
      destruct (char_some _ _ _ Hk) as (s & Hs & Hc).
      cbn [enter stroke_of st_key st_mods]. rewrite Hs, Hc. cbn [app].
      assert (D : (digit_char (c mod 16) =? 32) = false /\ hex_value (digit_char (c mod 16)) = Some (c mod 16)).
      { revert M. generalize (c mod 16). apply small_mods; split; reflexivity. }
      destruct D as [-> ->]. do 2 f_equal. lia.
    + exfalso. apply nth_error_None in E. cbn [length hex_keys] in E. lia.
Qed.

Lemma char_composed d c : number_keys (char_layout char_of lay) \/ d c <> None -> right_composed char_of table lay d -> c < 0x110000 ->
  composed (Pending []) (map stroke_of (type_char d c)) = ([c], Pending []).
Proof.
  intros H R L. unfold type_char. destruct (d c) as [e|] eqn:E.
  - destruct (R c e E) as [_ Q]. rewrite map_map. cbn [stroke_of st_key st_mods]. rewrite <- Q. f_equal.
    transitivity (map (fun x => x) e); [|apply map_id]. apply map_ext. now intros [k m].
  - destruct H as [H|H]; [|congruence]. pose proof (number_composed H 8 c) as Hn. destruct H as (HU & HS & HD).
    unfold hex_type. cbn [map TyperComposeSpec.composed stroke_of st_mods st_key enter].
    destruct (char_some _ _ _ HU) as (s & Hs & Hc). change K_U with 0x16. rewrite Hs, Hc. cbn [N.eqb Pos.eqb andb].
    rewrite map_app, composed_app, Hn by (eapply N.lt_le_trans; [exact L|vm_compute; discriminate]).
    cbn [map TyperComposeSpec.composed stroke_of st_mods st_key enter].
    destruct (char_some _ _ _ HS) as (s' & Hs' & Hc'). change Space with 0x39. rewrite Hs', Hc'. reflexivity.
Qed.
Lemma chars_composed d l : (forall c, In c l -> number_keys (char_layout char_of lay) \/ d c <> None) ->
  right_composed char_of table lay d -> Forall (fun c => c < 0x110000) l ->
  composed (Pending []) (map stroke_of (flat_map (type_char d) l)) = (l, Pending []).
Proof.
  intros H R F. revert H. induction F as [|c l Lc _ IH]; intros H; [reflexivity|]. pose proof (H c (or_introl eq_refl)) as Hc.
  specialize (IH (fun x Hx => H x (or_intror Hx))). cbn [flat_map]. rewrite map_app, composed_app, char_composed by assumption.
  rewrite IH. reflexivity.
Qed.

Lemma hex_good c : Forall good_stroke (hex_type c).
Proof.
  unfold hex_type. constructor; [repeat split; reflexivity|]. apply Forall_app. split; [|repeat constructor].
  apply Forall_map, Forall_rev. generalize 8%nat. intros f. revert c.
  induction f as [|f IH]; intros c; cbn [hex_digits]; [constructor|]. destruct (c =? 0); [constructor|]. constructor; [|apply IH].
  assert (B : N.land c 0xF < 16) by (change 0xF with (N.ones 4); rewrite N.land_ones; apply N.mod_lt; discriminate).
  revert B. generalize (N.land c 0xF). apply small_mods; repeat split.
Qed.
Lemma composed_good d l : right_composed char_of table lay d -> Forall good_stroke (flat_map (type_char d) l).
Proof.
  intros R. apply Forall_forall. intros x Hx. apply in_flat_map in Hx. destruct Hx as (c & _ & Hx). revert x Hx.
  apply Forall_forall. unfold type_char. destruct (d c) as [e|] eqn:E; [|apply hex_good].
  destruct (R c e E) as [F _]. apply Forall_map. eapply Forall_impl; [|exact F]. intros [k m] [T L]. cbn in *. split; [exact T|cbn; lia].
Qed.

(** A sequence of the table, with strokes which give its symbols *)
Lemma list_eqb_spec a : forall b, list_eqb a b = true <-> a = b.
Proof.
  induction a as [|x a IH]; intros [|y b]; cbn; try (split; discriminate || congruence).
  rewrite andb_true_iff, N.eqb_eq, IH. split; [intros [-> ->]; reflexivity|now intros [= -> ->]].
Qed.
Lemma prefixb_spec a : forall b, prefixb a b = true <-> exists r, b = a ++ r.
Proof.
  induction a as [|x a IH]; intros b; cbn [prefixb app]; [split; eauto|].
  destruct b as [|y b]; [split; [discriminate|intros [r H]; discriminate]|].
  rewrite andb_true_iff, N.eqb_eq, IH. split.
  - intros [-> [r ->]]. eauto.
  - intros [r [= -> ->]]. eauto.
Qed.

Lemma sequence_composed : strict_prefix_free table -> forall q o, In (q, o) table ->
  forall e p r, q <> p -> q = p ++ r ->
  Forall2 (fun s (x : key * N) => lay (fst x) (snd x) = Some s /\ snd x < 8) r e ->
  composed (Pending p) e = (o, Pending []).
Proof.
  intros PF q o Hq e. induction e as [|[k m] e IH]; intros p r Np Er F.
  - inversion F; subst r. rewrite app_nil_r in Er. congruence.
  - inversion F as [|s ? r' ? [Hl Lm] F']; subst. cbn [fst snd] in *. cbn [TyperComposeSpec.composed enter].
    destruct (N.eqb_spec m 9); [exfalso; lia|]. cbn [andb]. rewrite Hl. unfold feed.
    destruct (List.find _ table) as [[q' o']|] eqn:Fi.
    + apply find_some in Fi. destruct Fi as [I' Q]. cbn in Q. apply list_eqb_spec in Q. subst q'.
      assert (X : (p ++ [s], o') = (p ++ s :: r', o)).
      { apply PF; auto. apply prefixb_spec. exists r'. cbn. now rewrite <- app_assoc. }
      injection X as X <-. apply app_inv_head in X. injection X as <-. inversion F'; subst. cbn. now rewrite app_nil_r.
    + assert (Pr : existsb (fun x => prefixb (p ++ [s]) (fst x)) table = true).
      { apply existsb_exists. exists (p ++ s :: r', o). split; [exact Hq|]. apply prefixb_spec. exists r'. cbn. now rewrite <- app_assoc. }
      rewrite Pr. rewrite (IH (p ++ [s]) r'); [reflexivity| |now rewrite <- app_assoc|exact F'].
      intros X. pose proof (find_none _ _ Fi _ Hq) as Y. cbn in Y. rewrite X in Y.
      assert (Z : list_eqb (p ++ [s]) (p ++ [s]) = true) by now apply list_eqb_spec. rewrite Z in Y. discriminate Y.
Qed.
End Compose.

(** ** The dictionary made from a keymap and a table *)

Section Xkb.
Variable char_of : N -> N.

(** The strokes of the symbols *)
Definition gives (keys : keymap) (lay : symbols) (s : N) (x : key * N) : Prop :=
  typing_key (fst x) /\ snd x < 8 /\ lay (fst x) (snd x) = Some s.

Lemma level_symbol keys x y l sym r mask r' : plain_keymap keys -> In x keys -> In y (xk_layouts x) -> In l (xl_levels y) ->
  xkb_keyname_to_key (xk_name x) <> 0 -> lv_symbols l = sym :: r -> lv_masks l = mask :: r' ->
  gives keys (xkb_symbols keys) sym (xkb_keyname_to_key (xk_name x), get_xkb_modifiers mask).
Proof.
  intros [D F] Hx Hy Hl K Es Em. rewrite Forall_forall in F. destruct (F x Hx) as [L1 Fy]. rewrite Forall_forall in Fy.
  pose proof (Fy y Hy) as Fl. rewrite Forall_forall in Fl. destruct (Fl l Hl mask r' Em) as (M & My & Own).
  destruct (mask_cases mask M) as [St Lt]. split; [now apply name_typing|]. split; [exact Lt|]. cbn [fst snd].
  unfold xkb_symbols. rewrite (find_key keys x D Hx K).
  destruct (xk_layouts x) as [|y' [|? ?]]; [destruct Hy| |cbn in L1; lia]. destruct Hy as [->|[]]. rewrite St.
  assert (Z : N.land mask (N.ldiff 12 (xl_mods y)) = 0).
  { apply N.bits_inj. intros i. rewrite N.land_spec, N.ldiff_spec, N.bits_0. rewrite <- My, N.land_spec.
    destruct (N.testbit mask i), (N.testbit (xl_mods y) i), (N.testbit 12 i); reflexivity. }
  rewrite Z. cbn [N.eqb negb]. unfold level_for. rewrite My.
  destruct (List.find _ (xl_levels y)) as [l'|] eqn:Q.
  - apply find_some in Q. destruct Q as [I' Q]. apply existsb_exists in Q. destruct Q as (m & Im & Qm). apply N.eqb_eq in Qm. subst m.
    rewrite (Own l' I' Im). destruct l as [ss ms]. cbn in Es. subst ss. reflexivity.
  - exfalso. pose proof (find_none _ _ Q l Hl) as X. cbn beta in X. rewrite Em in X. cbn [existsb] in X. rewrite N.eqb_refl in X. discriminate X.
Qed.

Section Built.
Variable keys : keymap.
Variable lay : symbols.
Hypothesis plain : plain_keymap keys.
Hypothesis extends : forall k m s, xkb_symbols keys k m = Some s -> lay k m = Some s.

Definition built (s : xstate) : Prop :=
  Forall (fun p => exists sym x, snd p = [x] /\ on_keymap keys sym /\ char_of sym = fst p /\ fst p <> 0 /\ gives keys lay sym x) (xs_dict s) /\
  Forall (fun p => gives keys lay (fst p) (snd p)) (xs_dead s) /\
  Forall (fun p => gives keys lay (fst p) (snd p)) (xs_stroke s).

Lemma alook_in {A} n (m : amap A) a : alook n m = Some a -> In (n, a) m.
Proof.
  unfold alook. destruct (find _ m) as [[n' a']|] eqn:F; [|discriminate]. intros [= <-]. apply find_some in F. destruct F as [I Q].
  cbn in Q. apply N.eqb_eq in Q. now subst.
Qed.

Lemma add_level_built x y l s : In x keys -> In y (xk_layouts x) -> In l (xl_levels y) ->
  xkb_keyname_to_key (xk_name x) <> 0 -> built s -> built (add_level char_of (xkb_keyname_to_key (xk_name x)) l s).
Proof.
  intros Hx Hy Hl K (Bd & Be & Bs). unfold add_level. destruct (lv_symbols l) as [|sym r] eqn:Es; [now repeat split|].
  destruct (lv_masks l) as [|mask r'] eqn:Em; [now repeat split|].
  assert (G : gives keys lay sym (xkb_keyname_to_key (xk_name x), get_xkb_modifiers mask)).
  { destruct (level_symbol keys x y l sym r mask r' plain Hx Hy Hl K Es Em) as (T & L & Q). repeat split; auto; apply T. }
  destruct (N.eqb_spec (char_of sym) 0) as [Z|Z]; cbn [negb].
  - destruct (alook sym (xs_dead s)) as [y0|] eqn:Al.
    + apply alook_in in Al. split; [exact Bd|split; [exact Be|]]. constructor; [|exact Bs]. rewrite Forall_forall in Be. exact (Be _ Al).
    + split; [exact Bd|split; [apply Forall_app; split; [exact Be|constructor; [exact G|constructor]]|constructor; [exact G|exact Bs]]].
  - destruct (alook _ _); [now repeat split|]. split; [|split; [exact Be|constructor; [exact G|exact Bs]]].
    apply Forall_app. split; [exact Bd|]. constructor; [|constructor]. exists sym, (xkb_keyname_to_key (xk_name x), get_xkb_modifiers mask).
    cbn [fst snd]. split; [reflexivity|]. split; [exists x, y, l, r; auto|]. auto.
Qed.
Lemma add_key_built x s : In x keys -> built s -> built (add_key char_of x s).
Proof.
  intros Hx F. unfold add_key. destruct (xkb_keyname_to_key (xk_name x)) eqn:K; [exact F|]. rewrite <- K.
  apply fold_inv; [|exact F]. intros s1 y Hy F1. apply fold_inv; [|exact F1]. intros s2 l Hl F2.
  apply (add_level_built x y l); auto. rewrite K. discriminate.
Qed.

Lemma compose_strokes strokes : Forall (fun p => gives keys lay (fst p) (snd p)) strokes -> forall q e,
  compose_entry strokes q = Some e -> Forall2 (fun s x => gives keys lay s x) q e.
Proof.
  intros F. induction q as [|s q IH]; intros e; cbn [compose_entry]; [intros [= <-]; constructor|].
  destruct (alook s strokes) as [x|] eqn:A; [|discriminate]. destruct (compose_entry strokes q) as [e'|]; [|discriminate].
  intros [= <-]. constructor; [|now apply IH]. apply alook_in in A. rewrite Forall_forall in F. exact (F _ A).
Qed.

Lemma gives_strokes q e : Forall2 (fun s x => gives keys lay s x) q e ->
  Forall (fun x : key * N => typing_key (fst x) /\ snd x < 8) e /\
  Forall2 (fun s (x : key * N) => lay (fst x) (snd x) = Some s /\ snd x < 8) q e.
Proof. induction 1 as [|s x q e (T & L & Q) _ [A B]]; split; constructor; auto. Qed.

Theorem composed_right compose table : plain_table char_of keys table ->
  (forall x, compose = Some x -> gives keys lay multi_key x) ->
  right_composed char_of table lay (xkb_dictionary char_of compose keys (iterated table)).
Proof.
  intros (PF & Heads & Texts) Hc.
  assert (B : built (fold_left (fun s k => add_key char_of k s) (removelast keys) (start compose))).
  { apply fold_inv; [intros s x Hx; apply add_key_built; now apply removelast_in|]. destruct compose as [x|]; repeat constructor;
    try (apply (Hc x eq_refl)). }
  unfold xkb_dictionary. set (s0 := fold_left (fun s k => add_key char_of k s) (removelast keys) (start compose)) in *.
  destruct B as (Bd & _ & Bs).
  assert (Simple : forall c e, In (c, e) (xs_dict s0) -> Forall (fun x : key * N => typing_key (fst x) /\ snd x < 8) e /\
    composed char_of table lay (Pending []) e = ([c], Pending [])).
  { intros c e I. rewrite Forall_forall in Bd. destruct (Bd _ I) as (sym & [k m] & E & On & Ch & C0 & T & L & Q). cbn [fst snd] in *.
    subst e. split; [constructor; [split; assumption|constructor]|]. cbn [composed enter].
    destruct (N.eqb_spec m 9); [exfalso; lia|]. cbn [andb]. rewrite Q. unfold feed. cbn [app].
    rewrite Forall_forall in Heads.
    destruct (List.find _ table) as [[q o]|] eqn:Fi.
    - exfalso. apply find_some in Fi. destruct Fi as [Iq Qq]. cbn in Qq. apply list_eqb_spec in Qq. subst q.
      destruct (Heads _ Iq) as (s & r & Eh & Hh). cbn in Eh. injection Eh as <- <-. rewrite (Hh On) in Ch. congruence.
    - assert (X : existsb (fun x => prefixb [sym] (fst x)) table = false).
      { apply not_true_iff_false. intros X. apply existsb_exists in X. destruct X as ([q o] & Iq & Qq). cbn [fst] in Qq.
        apply prefixb_spec in Qq. destruct Qq as [r0 Qq]. destruct (Heads _ Iq) as (s & r & Eh & Hh). cbn [fst] in Eh. rewrite Eh in Qq.
        injection Qq as <- _. rewrite (Hh On) in Ch. congruence. }
      rewrite X. unfold chars_of. rewrite Ch. apply N.eqb_neq in C0. rewrite C0. reflexivity. }
  assert (All : forall l (d : amap entry), (forall x, In x l -> In x (iterated table)) -> 
    (forall c (e : entry), In (c, e) d -> Forall (fun x : key * N => typing_key (fst x) /\ snd x < 8) e /\
      composed char_of table lay (Pending []) e = ([c], Pending [])) ->
    forall c e, In (c, e) (fold_left (add_composed (xs_stroke s0)) l d) -> Forall (fun x : key * N => typing_key (fst x) /\ snd x < 8) e /\
      composed char_of table lay (Pending []) e = ([c], Pending [])).
  { induction l as [|[c1 q1] l IH]; intros d Hl Hd; [exact Hd|]. cbn [fold_left]. apply IH; [intros x Hx; apply Hl; now right|].
    intros c e. unfold add_composed. cbn [fst snd]. destruct (alook c1 d); [exact (Hd c e)|].
    destruct (compose_entry (xs_stroke s0) q1) as [[|y0 e0]|] eqn:Ce; [exact (Hd c e)| |exact (Hd c e)].
    intros I. apply in_app_or in I. destruct I as [I|[[= <- <-]|[]]]; [now apply Hd|].
    destruct (gives_strokes _ _ (compose_strokes _ Bs _ _ Ce)) as [T2 F2]. split; [exact T2|].
    assert (It : In (c1, q1) (iterated table)) by (apply Hl; now left).
    unfold iterated in It. apply in_flat_map in It. destruct It as ([q o] & Iq & Io). cbn [fst snd] in Io.
    rewrite Forall_forall in Texts. destruct (Texts _ Iq) as [c2 Ec]. cbn [snd] in Ec. subst o. destruct Io as [Io|[]]. injection Io as Q1 Q2. subst c2 q.
    apply (sequence_composed char_of table lay PF q1 [c1] Iq (y0 :: e0) [] q1); auto.
    intros ->. inversion F2. }
  intros c e H. apply alook_in in H. exact (All _ _ (fun x Hx => Hx) Simple c e H).
Qed.
End Built.

(** ** What the dictionary has *)

Section Reached.
Variable keys : keymap.
Hypothesis one_each : one_symbol_each char_of keys.

Definition traced (s : xstate) : Prop :=
  forall c e, In (c, e) (xs_dict s) -> exists sym, on_keymap keys sym /\ char_of sym = c /\ c <> 0 /\ alook sym (xs_stroke s) <> None.
Definition has (sym : N) (s : xstate) : Prop :=
  (char_of sym <> 0 -> alook (char_of sym) (xs_dict s) <> None) /\ alook sym (xs_stroke s) <> None.

Lemma alook_cons {A} n a (m : amap A) k : alook k m <> None -> alook k ((n, a) :: m) <> None.
Proof. unfold alook. cbn [find fst]. destruct (n =? k); [discriminate|auto]. Qed.
Lemma alook_here {A} n a (m : amap A) : alook n ((n, a) :: m) <> None.
Proof. unfold alook. cbn [find fst]. rewrite N.eqb_refl. discriminate. Qed.
Lemma alook_app {A} k (m m' : amap A) : alook k m <> None -> alook k (m ++ m') <> None.
Proof.
  unfold alook. induction m as [|[n a] m IH]; cbn [find app fst]; [congruence|]. destruct (n =? k); [discriminate|exact IH].
Qed.
Lemma alook_last {A} k (m : amap A) a : alook k (m ++ [(k, a)]) <> None.
Proof.
  unfold alook. induction m as [|[n b] m IH]; cbn [find app fst]; [rewrite N.eqb_refl; discriminate|]. destruct (n =? k); [discriminate|exact IH].
Qed.

Lemma level_has k l s sym r : lv_symbols l = sym :: r -> lv_masks l <> [] -> on_keymap keys sym -> traced s ->
  has sym (add_level char_of k l s) .
Proof.
  intros Es Em On T. unfold add_level. rewrite Es. destruct (lv_masks l) as [|mask r']; [congruence|].
  destruct (N.eqb_spec (char_of sym) 0) as [Z|Z]; cbn [negb].
  - split; [congruence|]. destruct (alook sym (xs_dead s)); apply alook_here.
  - destruct (alook (char_of sym) (xs_dict s)) as [e|] eqn:A.
    + split; [congruence|]. apply alook_in in A. destruct (T _ _ A) as (sym' & On' & C & C0 & Ha).
      now rewrite (one_each sym sym' On On' Z (eq_sym C)).
    + split; [intros _; apply alook_last|apply alook_here].
Qed.
Lemma level_keeps k l s sym : has sym s -> has sym (add_level char_of k l s).
Proof.
  intros [H1 H2]. unfold add_level. destruct (lv_symbols l) as [|s1 r]; [now split|]. destruct (lv_masks l) as [|mask r']; [now split|].
  destruct (negb (char_of s1 =? 0)).
  - destruct (alook (char_of s1) (xs_dict s)); [now split|]. split; [intros Z; apply alook_app, H1, Z|now apply alook_cons].
  - destruct (alook s1 (xs_dead s)); (split; [exact H1|now apply alook_cons]).
Qed.
Lemma level_traced k x y l s : In x keys -> In y (xk_layouts x) -> In l (xl_levels y) -> traced s -> traced (add_level char_of k l s).
Proof.
  intros Hx Hy Hl T. unfold add_level. destruct (lv_symbols l) as [|s1 r] eqn:Es; [exact T|]. destruct (lv_masks l) as [|mask r']; [exact T|].
  destruct (N.eqb_spec (char_of s1) 0) as [Z|Z]; cbn [negb].
  - assert (K : forall y0 dead, traced (Xs (xs_dict s) dead ((s1, y0) :: xs_stroke s))).
    { intros y0 dead c e I. destruct (T c e I) as (sym & A & B & C & D). exists sym. repeat (split; [assumption|]). now apply alook_cons. }
    destruct (alook s1 (xs_dead s)); apply K.
  - destruct (alook (char_of s1) (xs_dict s)); [exact T|]. intros c e I. cbn [xs_dict xs_stroke] in *. apply in_app_or in I.
    destruct I as [I|[[= <- <-]|[]]].
    + destruct (T c e I) as (sym & A & B & C & D). exists sym. repeat (split; [assumption|]). now apply alook_cons.
    + exists s1. split; [exists x, y, l, r; auto|]. repeat (split; [auto|]). apply alook_here.
Qed.

Lemma fold_reach {A B} (P : B -> Prop) (Q : B -> Prop) (f : B -> A -> B) a : forall l b,
  (forall b a, In a l -> P b -> P (f b a)) -> (forall b a, In a l -> Q b -> Q (f b a)) ->
  (forall b, P b -> Q (f b a)) -> In a l -> P b -> Q (fold_left f l b).
Proof.
  induction l as [|x l IH]; intros b HP HQ Ha I Pb; [destruct I|]. cbn [fold_left]. destruct I as [->|I].
  - apply fold_inv; [intros; apply HQ; [now right|assumption]|]. now apply Ha.
  - apply IH; auto; [intros; apply HP; [now right|assumption]|intros; apply HQ; [now right|assumption]|apply HP; [now left|exact Pb]].
Qed.

Lemma key_traced x s : In x keys -> traced s -> traced (add_key char_of x s).
Proof.
  intros Hx T. unfold add_key. destruct (xkb_keyname_to_key (xk_name x)) eqn:K; [exact T|]. rewrite <- K.
  apply fold_inv; [|exact T]. intros s1 y Hy T1. apply fold_inv; [|exact T1]. intros s2 l Hl T2. now apply (level_traced _ x y).
Qed.
Lemma key_keeps x s sym : has sym s -> has sym (add_key char_of x s).
Proof.
  intros H. unfold add_key. destruct (xkb_keyname_to_key (xk_name x)); [exact H|].
  apply fold_inv; [|exact H]. intros s1 y _ H1. apply fold_inv; [|exact H1]. intros s2 l _. apply level_keeps.
Qed.
Lemma key_has x y l sym r s : In x keys -> xkb_keyname_to_key (xk_name x) <> 0 -> In y (xk_layouts x) -> In l (xl_levels y) ->
  lv_symbols l = sym :: r -> lv_masks l <> [] -> traced s -> has sym (add_key char_of x s).
Proof.
  intros Hx K Hy Hl Es Em T. unfold add_key. destruct (xkb_keyname_to_key (xk_name x)) eqn:K'; [congruence|]. rewrite <- K'.
  apply (fold_reach traced (has sym) _ y); auto.
  - intros s1 y1 Hy1 T1. apply fold_inv; [|exact T1]. intros s2 l2 Hl2. now apply (level_traced _ x y1).
  - intros s1 y1 _ H1. apply fold_inv; [|exact H1]. intros s2 l2 _. apply level_keeps.
  - intros s1 T1. apply (fold_reach traced (has sym) _ l); auto.
    + intros s2 l2 Hl2. now apply (level_traced _ x y).
    + intros s2 l2 _. apply level_keeps.
    + intros s2 T2. apply (level_has _ l s2 sym r); auto. exists x, y, l, r. auto.
Qed.

Lemma compose_reached strokes q : Forall (fun s => alook s strokes <> None) q -> exists e, compose_entry strokes q = Some e /\ length e = length q.
Proof.
  induction 1 as [|s q H _ (e & E & L)]; [now exists []|]. cbn [compose_entry]. destruct (alook s strokes) as [x|]; [|congruence].
  rewrite E. exists (x :: e). cbn. auto.
Qed.

Theorem reached compose table : 
  let d := xkb_dictionary char_of compose keys (iterated table) in
  (forall s, on_known_key keys s -> char_of s <> 0 -> d (char_of s) <> None) /\
  (forall q c r, In (q, c :: r) table -> q <> [] -> Forall (reachable compose keys) q -> d c <> None).
Proof.
  unfold xkb_dictionary. cbv zeta. set (s0 := fold_left (fun s k => add_key char_of k s) (removelast keys) (start compose)).
  assert (T0 : traced (start compose)) by (destruct compose; intros c e []).
  assert (H0 : forall s, on_known_key keys s -> has s s0).
  { intros s (x & y & l & r & Hx & K & Hy & Hl & Es & Em). apply (fold_reach traced (has s) _ x); auto.
    - intros b a Ha. apply key_traced. now apply removelast_in.
    - intros b a _. apply key_keeps.
    - intros b. apply (key_has x y l s r); auto. now apply removelast_in. }
  assert (M0 : compose <> None -> alook multi_key (xs_stroke s0) <> None).
  { intros Hc. unfold s0. apply (fold_inv (fun s => alook multi_key (xs_stroke s) <> None)).
    - intros b a _ Hb. unfold add_key. destruct (xkb_keyname_to_key (xk_name a)); [exact Hb|].
      apply (fold_inv (fun s => alook multi_key (xs_stroke s) <> None)); [|exact Hb]. intros b1 y _ Hb1.
      apply (fold_inv (fun s => alook multi_key (xs_stroke s) <> None)); [|exact Hb1]. intros b2 l _ Hb2.
      unfold add_level. destruct (lv_symbols l) as [|s1 r]; [exact Hb2|]. destruct (lv_masks l); [exact Hb2|].
      destruct (negb _); [destruct (alook (char_of s1) (xs_dict b2)); [exact Hb2|now apply alook_cons]|destruct (alook s1 (xs_dead b2)); now apply alook_cons].
    - destruct compose as [x|]; [apply alook_here|congruence]. }
  assert (Mono : forall l c (d : amap entry), alook c d <> None -> alook c (fold_left (add_composed (xs_stroke s0)) l d) <> None).
  { intros l c d. apply (fold_inv (fun d : amap entry => alook c d <> None)). intros b [c1 q1] _ Hb. unfold add_composed. cbn [fst snd]. destruct (alook c1 b); [exact Hb|].
    destruct (compose_entry _ _) as [[|]|]; [exact Hb|now apply alook_app|exact Hb]. }
  split.
  - intros s Hs Z. apply Mono. now apply (H0 s Hs).
  - intros q c r I Nq F. assert (It : In (c, q) (iterated table)) by (apply in_flat_map; exists (q, c :: r); split; [exact I|now left]).
    apply (fold_reach (fun _ => True) (fun d : amap entry => alook c d <> None) (add_composed (xs_stroke s0)) (c, q)); auto.
    + intros b [c1 q1] _. apply (Mono [(c1, q1)]).
    + intros b _. unfold add_composed. cbn [fst snd]. destruct (alook c b) eqn:A; [congruence|].
      assert (Fs : Forall (fun s => alook s (xs_stroke s0) <> None) q).
      { eapply Forall_impl; [|exact F]. intros s [Hs|[-> Hc]]; [now apply (H0 s Hs)|now apply M0]. }
      destruct (compose_reached _ _ Fs) as (e & -> & L). destruct e as [|x e]; [destruct q; [congruence|discriminate L]|]. apply alook_last.
Qed.
End Reached.
End Xkb.
