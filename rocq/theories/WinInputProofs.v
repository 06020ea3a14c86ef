(** Proofs about typing on Windows (C101) and reading and sending keys (C102). *)
From Coq Require Import String Ascii List Arith NArith ZArith Bool Lia.
From Verif Require Import Base Key Text ParseSeq Typer TyperSpec TyperProofs MultiStage Server Client ClientInject
  WinServer WinInput WinInputSpec.
Import ListNotations.
Local Open Scope N_scope.

(** ** Lists of inputs *)

Lemma inputs_app a : forall b hb, send_inputs (a ++ b) hb =
  (fst (send_inputs a hb) ++ fst (send_inputs b (snd (send_inputs a hb))), snd (send_inputs b (snd (send_inputs a hb)))).
Proof.
  induction a as [|e a IH]; intros b hb; cbn [app send_inputs fst snd].
  - now destruct (send_inputs b hb).
  - destruct (send_input e hb) as [x h1]. rewrite IH. destruct (send_inputs a h1) as [y h2]. cbn [fst snd].
    now rewrite app_assoc.
Qed.
Lemma reads_app lay a : forall b st, read_inputs lay st (a ++ b) =
  (fst (read_inputs lay (fst (read_inputs lay st a)) b),
   snd (read_inputs lay st a) ++ snd (read_inputs lay (fst (read_inputs lay st a)) b)).
Proof.
  induction a as [|e a IH]; intros b st; cbn [app read_inputs fst snd].
  - now destruct (read_inputs lay st b).
  - destruct (read_input lay st e) as [s1 x]. rewrite IH. destruct (read_inputs lay s1 a) as [s2 y]. cbn [fst snd].
    now rewrite app_assoc.
Qed.
Lemma output_app a : forall b prev, w_type_output (a ++ b) prev =
  (fst (w_type_output a prev) ++ fst (w_type_output b (snd (w_type_output a prev))),
   snd (w_type_output b (snd (w_type_output a prev)))).
Proof.
  induction a as [|x a IH]; intros b prev; cbn [app w_type_output fst snd].
  - now destruct (w_type_output b prev).
  - rewrite IH. destruct (w_type_output a (st_mods x)) as [y p]. cbn [fst snd].
    f_equal. now rewrite <- !app_assoc.
Qed.
Lemma logical_app a b : replace_logical_keys (a ++ b) = replace_logical_keys a ++ replace_logical_keys b.
Proof. unfold replace_logical_keys. apply map_app. Qed.

(** Releases of keys give no characters. *)
Definition releases (l : sequence) : Prop := Forall (fun e => es e = Up) l.
Definition up_input (x : winput) : Prop := match x with IScan _ _ u | IVk _ u | IUnicode _ u => u = true | IMouse _ _ => True end.
Lemma up_key_input e hb : es e = Up ->
  match fst (make_key_input e hb) with Some x => up_input x | None => True end /\ fst (snd (make_key_input e hb)) = fst hb.
Proof.
  intros He. unfold make_key_input. rewrite He. change (kstate_eqb Up Up) with true. cbv beta iota zeta.
  repeat (match goal with |- context [if ?c then _ else _] => destruct c end); (split; [try reflexivity; exact Logic.I|reflexivity]).
Qed.
Lemma up_inputs l : releases l -> forall hb, Forall up_input (fst (send_inputs l hb)) /\ fst (snd (send_inputs l hb)) = fst hb.
Proof.
  induction 1 as [|e l He F IH]; intros hb; cbn [send_inputs fst snd]; [repeat constructor|].
  unfold send_input. destruct (make_button_input e) as [x|] eqn:B.
  - specialize (IH hb). destruct (send_inputs l hb) as [y h]. cbn [fst snd] in *. split; [|tauto]. constructor; [|tauto].
    unfold make_button_input in B. repeat match type of B with (if ?c then _ else _) = _ => destruct c end;
      first [injection B as <-; exact Logic.I | discriminate B].
  - pose proof (up_key_input e hb He) as [K1 K2]. destruct (make_key_input e hb) as [[x|] h1]; cbn [fst snd] in K1, K2;
      specialize (IH h1); destruct (send_inputs l h1) as [y h2]; cbn [fst snd app] in *; destruct IH as [I1 I2];
      (split; [|congruence]); [constructor; assumption|assumption].
Qed.
Lemma up_reads lay l : forall st, Forall up_input l ->
  snd (read_inputs lay st l) = [] /\ snd (fst (read_inputs lay st l)) = snd st.
Proof.
  induction l as [|x l IH]; intros st F; cbn [read_inputs fst snd]; [split; reflexivity|].
  pose proof (Forall_inv F) as Fx. apply Forall_inv_tail in F.
  assert (snd (read_input lay st x) = [] /\ snd (fst (read_input lay st x)) = snd st) as [E1 E2].
  { unfold read_input. destruct x as [s e u|v u|c u|f d]; cbn [up_input] in Fx; try subst u; cbn [physical_of].
    - destruct (is_w_modifier _); split; reflexivity.
    - destruct (match v with 0 => _ | _ => _ end) as [[p u]|] eqn:Ev; [|split; reflexivity].
      assert (u = true) as -> by (repeat match type of Ev with context [match ?q with _ => _ end] => destruct q; try discriminate Ev end; now injection Ev).
      destruct (is_w_modifier _); split; reflexivity.
    - split; reflexivity.
    - split; reflexivity. }
  destruct (read_input lay st x) as [s1 a]. cbn [fst snd] in *. subst a.
  destruct (IH s1 F) as [H1 H2]. destruct (read_inputs lay s1 l) as [s2 b]. cbn [fst snd] in *. subst b.
  split; [reflexivity|congruence].
Qed.

(** ** A character *)

Definition rep (held : key -> bool) (m : N) : Prop :=
  held ShiftLeft = N.testbit m 0 /\ held ShiftRight = false /\ held AltLeft = N.testbit m 1 /\
  held AltRight_w = N.testbit m 2 /\ held ControlLeft = N.testbit m 3 /\ held ControlRight_w = false.
Lemma rep_mods held m : In m [0; 1; 4] -> rep held m -> w_mods_held held = m.
Proof.
  intros Hm (A & B & C & D & F & G). unfold w_mods_held. rewrite A, B, C, D, F, G.
  cbn in Hm. destruct Hm as [<-|[<-|[<-|[]]]]; reflexivity.
Qed.

Definition mod_events (m prev : N) : sequence := replace_logical_keys (flat_map (type_output_mod m prev) w_mod_keys).
Lemma mods_read lay m prev : In m [0; 1; 4] -> In prev [0; 1; 4] -> forall held dead hb, rep held prev ->
  snd (send_inputs (mod_events m prev) hb) = hb /\
  exists held', read_inputs lay (held, dead) (fst (send_inputs (mod_events m prev) hb)) = ((held', dead), []) /\ rep held' m.
Proof.
  intros Hm Hp held dead hb (A & B & C & D & F & G).
  cbn in Hm, Hp. destruct Hm as [<-|[<-|[<-|[]]]]; destruct Hp as [<-|[<-|[<-|[]]]];
    match goal with |- context [mod_events ?x ?y] => let v := eval vm_compute in (mod_events x y) in change (mod_events x y) with v end;
    (split; [reflexivity|]);
    (eexists; split; [cbn; reflexivity|]); unfold rep; cbn; repeat split; assumption.
Qed.
Lemma stroke_reads lay k dead held hb m : w_typing_key k -> In m [0; 1; 4] -> rep held m ->
  snd (send_inputs [ev0 k Down; ev0 k Up] hb) = hb /\
  read_inputs lay (held, dead) (fst (send_inputs [ev0 k Down; ev0 k Up] hb)) =
  ((held, fst (lay dead k m)), chars_of (snd (lay dead k m))).
Proof.
  intros ([K0 K1] & Km & Kp) Hm R.
  assert (NB : forall s, make_button_input (ev0 k s) = None).
  { intros s. unfold make_button_input. cbn [ek ev0].
    repeat match goal with |- context [k =? ?n] =>
      replace (k =? n) with false by (symmetry; apply N.eqb_neq; unfold ButtonLeft, ButtonRight, ButtonMiddle, ButtonBack, ButtonForward, WheelUp, WheelDown, WheelLeft, WheelRight; lia) end.
    reflexivity. }
  assert (L : N.land k 0xE000 = 0).
  { apply N.bits_inj. intros i. rewrite N.land_spec, N.bits_0. destruct (N.ltb_spec i 8) as [H|H].
    - assert (N.testbit 0xE000 i = false) as ->; [|apply andb_false_r].
      assert (Hc : i = 0 \/ i = 1 \/ i = 2 \/ i = 3 \/ i = 4 \/ i = 5 \/ i = 6 \/ i = 7) by lia.
      repeat destruct Hc as [->|Hc]; try reflexivity. subst. reflexivity.
    - assert (N.testbit k i = false) as ->; [|reflexivity]. apply N.bits_above_log2.
      assert (N.log2 k < 8); [|lia]. apply N.log2_lt_pow2; [exact K0|]. exact K1. }
  assert (KI : forall s, make_key_input (ev0 k s) hb = (Some (IScan k false (kstate_eqb s Up)), hb)).
  { intros s. unfold make_key_input. cbn [ek es ev ev0]. rewrite L. cbn [N.eqb negb].
    unfold is_w_modifier, w_modifiers in Km. cbn [existsb] in Km. repeat (apply orb_false_iff in Km; destruct Km as [? Km]).
    replace (k =? k_unicode_output) with false by (symmetry; apply N.eqb_neq; unfold k_unicode_output; lia).
    replace (k =? ShiftRight) with false by congruence.
    replace (k =? Pause_w) with false by (symmetry; apply N.eqb_neq; exact Kp).
    replace (k =? NumLock_w) with false by (symmetry; apply N.eqb_neq; unfold NumLock_w; lia).
    replace (k =? MetaLeft_w) with false by (symmetry; apply N.eqb_neq; unfold MetaLeft_w; lia).
    replace (k =? MetaRight_w) with false by (symmetry; apply N.eqb_neq; unfold MetaRight_w; lia).
    reflexivity. }
  cbn [send_inputs]. unfold send_input. rewrite !NB, !KI. cbn [fst snd app kstate_eqb]. split; [reflexivity|].
  cbn [read_inputs]. unfold read_input. cbn [physical_of fst snd code_of].
  rewrite N.mod_small by exact K1. unfold code_of. cbn [fst snd]. rewrite N.add_0_r, Km. cbn [negb].
  rewrite (rep_mods held m Hm R). destruct (lay dead k m) as [d r]. cbn [fst snd].
  now rewrite !app_nil_r.
Qed.

Lemma stroke_output x prev : w_type_output [x] prev =
  (flat_map (type_output_mod (st_mods x) prev) w_mod_keys ++ [Ev (st_key x) Down (st_value x); Ev (st_key x) Up (st_value x)], st_mods x).
Proof. reflexivity. Qed.
Lemma typing_logical k : w_typing_key k -> replace_logical_key k = k.
Proof.
  intros ((_ & K) & _). unfold replace_logical_key.
  repeat match goal with |- context [k =? ?n] => replace (k =? n) with false by (symmetry; apply N.eqb_neq; unfold k_Shift, k_Control, k_Meta, first_logical; lia) end.
  reflexivity.
Qed.
Lemma entry_reads lay : forall l prev held dead hb, (forall x, In x l -> w_typing_key (fst x) /\ In (snd x) [0; 1; 4]) ->
  In prev [0; 1; 4] -> rep held prev ->
  let o := w_type_output (map (fun x => Stroke (fst x) (snd x) 0) l) prev in
  In (snd o) [0; 1; 4] /\ snd (send_inputs (replace_logical_keys (fst o)) hb) = hb /\
  exists held', read_inputs lay (held, dead) (fst (send_inputs (replace_logical_keys (fst o)) hb)) =
    ((held', fst (press_keys lay dead l)), snd (press_keys lay dead l)) /\ rep held' (snd o).
Proof.
  induction l as [|[k m] l IH]; intros prev held dead hb H Hp R o.
  - unfold o. cbn [map w_type_output fst snd]. split; [exact Hp|]. split; [reflexivity|]. exists held. split; [reflexivity|exact R].
  - destruct (H (k, m) (or_introl eq_refl)) as [Hk Hm]. cbn [fst snd] in Hk, Hm.
    unfold o. cbn [map]. change (?x :: map ?f l) with ([x] ++ map f l). rewrite output_app, stroke_output.
    cbn [fst snd st_key st_mods st_value]. rewrite !logical_app, !inputs_app. cbn [fst snd].
    destruct (mods_read lay m prev Hm Hp held dead hb R) as (M1 & h1 & M2 & R1). unfold mod_events in M1, M2.
    rewrite M1. assert (E : replace_logical_keys [Ev k Down 0; Ev k Up 0] = [ev0 k Down; ev0 k Up]).
    { unfold replace_logical_keys. cbn [map ek es ev]. now rewrite typing_logical by exact Hk. }
    rewrite E. destruct (stroke_reads lay k dead h1 hb m Hk Hm R1) as [S1 S2]. rewrite S1.
    destruct (IH m h1 (fst (lay dead k m)) hb (fun x Hx => H x (or_intror Hx)) Hm R1) as (I1 & I2 & h2 & I3 & R2).
    split; [exact I1|]. split; [exact I2|]. exists h2. split; [|exact R2].
    rewrite !reads_app, M2. cbn [fst snd]. rewrite S2. cbn [fst snd]. rewrite I3. cbn [fst snd press_keys app].
    destruct (lay dead k m) as [d1 r1]. cbn [fst snd]. destruct (press_keys lay d1 l) as [d2 r2]. reflexivity.
Qed.

(** Two events make a character of 16 bits. *)
Lemma halves c : c < 0x10000 -> N.lor (N.shiftl (N.lor 0x8000 (N.land (N.shiftr c 8) 0xFF)) 8) (N.land c 0xFF) mod 0x10000 = c.
Proof.
  intros H. change 0x10000 with (2 ^ 16). rewrite <- N.land_ones. apply N.bits_inj. intros i.
  rewrite N.land_spec, N.lor_spec.
  change 0xFF with (N.ones 8). rewrite N.land_spec.
  destruct (N.ltb_spec i 16) as [L|L].
  - rewrite (N.ones_spec_low 16) by exact L. rewrite andb_true_r.
    destruct (N.ltb_spec i 8) as [L8|L8].
    + rewrite N.shiftl_spec_low by exact L8. rewrite (N.ones_spec_low 8) by exact L8. rewrite andb_true_r. reflexivity.
    + rewrite N.shiftl_spec_high' by exact L8. rewrite N.lor_spec, N.land_spec, N.shiftr_spec'.
      replace (i - 8 + 8) with i by lia. rewrite (N.ones_spec_high 8 i) by exact L8. rewrite andb_false_r, orb_false_r.
      rewrite (N.ones_spec_low 8 (i - 8)) by lia. rewrite andb_true_r.
      assert (N.testbit 0x8000 (i - 8) = false) as ->; [|reflexivity].
      assert (Hc : i = 8 \/ i = 9 \/ i = 10 \/ i = 11 \/ i = 12 \/ i = 13 \/ i = 14 \/ i = 15) by lia.
      repeat destruct Hc as [->|Hc]; try reflexivity. subst. reflexivity.
  - rewrite (N.ones_spec_high 16 i) by exact L. rewrite andb_false_r. symmetry.
    destruct (N.eq_dec c 0) as [->|Nz]; [apply N.bits_0|]. apply N.bits_above_log2.
    assert (N.log2 c < 16); [|lia]. apply N.log2_lt_pow2; [lia|exact H].
Qed.
Lemma high_set v : N.lor 0x8000 v =? 0 = false.
Proof. apply N.eqb_neq. intros H. apply N.lor_eq_0_l in H. discriminate H. Qed.

Lemma unicode_reads lay c prev held hb : c < 0x10000 -> fst hb = 0 -> In prev [0; 1; 4] -> rep held prev ->
  let o := w_type_output [Stroke k_unicode_output 0 (N.land (N.shiftr c 8) 0xFF); Stroke k_unicode_output 0 (N.land c 0xFF)] prev in
  In (snd o) [0; 1; 4] /\ fst (snd (send_inputs (replace_logical_keys (fst o)) hb)) = 0 /\
  exists held', read_inputs lay (held, None) (fst (send_inputs (replace_logical_keys (fst o)) hb)) = ((held', None), [c]) /\
    rep held' (snd o).
Proof.
  intros Hc Hh Hp R o. unfold o. set (a := N.land (N.shiftr c 8) 0xFF). set (b := N.land c 0xFF).
  change [Stroke k_unicode_output 0 a; Stroke k_unicode_output 0 b] with ([Stroke k_unicode_output 0 a] ++ [Stroke k_unicode_output 0 b]).
  rewrite output_app, !stroke_output. cbn [fst snd st_key st_mods st_value]. split; [now left|].
  change (flat_map (type_output_mod 0 0) w_mod_keys) with (@nil event). cbn [app].
  rewrite !logical_app, !inputs_app. cbn [fst snd].
  destruct (mods_read lay 0 prev (or_introl eq_refl) Hp held None hb R) as (M1 & h1 & M2 & R1). unfold mod_events in M1, M2.
  rewrite M1. destruct hb as [hd hu]. cbn [fst] in Hh. subst hd.
  change (replace_logical_keys [Ev k_unicode_output Down a; Ev k_unicode_output Up a]) with [Ev k_unicode_output Down a; Ev k_unicode_output Up a].
  change (replace_logical_keys [Ev k_unicode_output Down b; Ev k_unicode_output Up b]) with [Ev k_unicode_output Down b; Ev k_unicode_output Up b].
  assert (S1 : forall v s hb, send_input (Ev k_unicode_output s v) hb =
    match make_key_input (Ev k_unicode_output s v) hb with (Some x, hb) => ([x], hb) | (None, hb) => ([], hb) end) by reflexivity.
  assert (D : forall v h u, make_key_input (Ev k_unicode_output Down v) (h, u) =
    if h =? 0 then (None, (N.lor 0x8000 v, u)) else (Some (IUnicode (N.lor (N.shiftl h 8) v mod 0x10000) false), (0, u))) by reflexivity.
  assert (U : forall v h u, make_key_input (Ev k_unicode_output Up v) (h, u) =
    if u =? 0 then (None, (h, N.lor 0x8000 v)) else (Some (IUnicode (N.lor (N.shiftl u 8) v mod 0x10000) true), (h, 0))) by reflexivity.
  assert (F : exists h u', send_inputs [Ev k_unicode_output Down a; Ev k_unicode_output Up a] (0, hu) =
    (u', (N.lor 0x8000 a, h)) /\ (u' = [] \/ exists z, u' = [IUnicode z true])).
  { cbn [send_inputs]. rewrite S1, D. change (0 =? 0) with true. cbv beta iota. rewrite S1, U.
    destruct (hu =? 0); cbv beta iota; cbn [app]; eexists _, _; (split; [reflexivity|eauto]). }
  destruct F as (h & u' & F & Fu). rewrite F. cbn [fst snd].
  assert (G : exists h' u'', send_inputs [Ev k_unicode_output Down b; Ev k_unicode_output Up b] (N.lor 0x8000 a, h) =
    (IUnicode c false :: u'', (0, h')) /\ (u'' = [] \/ exists z, u'' = [IUnicode z true])).
  { cbn [send_inputs]. rewrite S1, D, high_set. cbv beta iota.
    unfold a, b. rewrite halves by exact Hc. rewrite S1, U.
    destruct (h =? 0); cbv beta iota; cbn [app]; eexists _, _; (split; [reflexivity|eauto]). }
  destruct G as (h' & u'' & G & Gu). rewrite G. cbn [fst snd]. split; [reflexivity|].
  exists h1. split; [|exact R1]. rewrite !reads_app, M2. cbn [fst snd app].
  destruct Fu as [->|(z & ->)], Gu as [->|(z' & ->)]; reflexivity.
Qed.

Lemma char_reads lay d c prev held hb : w_right_for lay d -> c < 0x10000 -> fst hb = 0 -> In prev [0; 1; 4] -> rep held prev ->
  let o := w_type_output (w_type_char d c) prev in
  In (snd o) [0; 1; 4] /\ fst (snd (send_inputs (replace_logical_keys (fst o)) hb)) = 0 /\
  exists held', read_inputs lay (held, None) (fst (send_inputs (replace_logical_keys (fst o)) hb)) = ((held', None), [c]) /\
    rep held' (snd o).
Proof.
  intros HR Hc Hh Hp R. unfold w_type_char. destruct (look_up c d) as [e|] eqn:L; [|now apply unicode_reads].
  destruct (HR c e L) as [He Pe].
  replace ((if fst (we_dead e) =? 0 then [] else [Stroke (fst (we_dead e)) (snd (we_dead e)) 0]) ++ [Stroke (fst (we_key e)) (snd (we_key e)) 0])
    with (map (fun x : key * N => Stroke (fst x) (snd x) 0) (entry_keys e)).
  2: { unfold entry_keys. rewrite map_app. destruct (fst (we_dead e) =? 0); reflexivity. }
  destruct (entry_reads lay (entry_keys e) prev held None hb He Hp R) as (A & B & h & C & D). cbv zeta.
  split; [exact A|]. rewrite B. split; [exact Hh|]. exists h. rewrite C, Pe. split; [reflexivity|exact D].
Qed.
Lemma chars_read lay d : w_right_for lay d -> forall l prev held hb, Forall (fun c => c < 0x10000) l -> fst hb = 0 ->
  In prev [0; 1; 4] -> rep held prev ->
  let o := w_type_output (flat_map (w_type_char d) l) prev in
  In (snd o) [0; 1; 4] /\ fst (snd (send_inputs (replace_logical_keys (fst o)) hb)) = 0 /\
  exists held', read_inputs lay (held, None) (fst (send_inputs (replace_logical_keys (fst o)) hb)) = ((held', None), l) /\
    rep held' (snd o).
Proof.
  intros HR. induction l as [|c l IH]; intros prev held hb F Hh Hp R.
  - cbn [flat_map w_type_output fst snd]. split; [exact Hp|]. split; [exact Hh|]. exists held. split; [reflexivity|exact R].
  - cbn [flat_map]. cbv zeta. rewrite output_app. cbn [fst snd].
    destruct (char_reads lay d c prev held hb HR (Forall_inv F) Hh Hp R) as (A & B & h & C & D). cbv zeta in *.
    set (o1 := w_type_output (w_type_char d c) prev) in *. rewrite logical_app, inputs_app. cbn [fst snd].
    set (hb1 := snd (send_inputs (replace_logical_keys (fst o1)) hb)) in *.
    destruct (IH (snd o1) h hb1 (Forall_inv_tail F) B A D) as (A' & B' & h' & C' & D').
    split; [exact A'|]. split; [exact B'|]. exists h'. split; [|exact D']. rewrite reads_app, C. cbn [fst snd]. now rewrite C'.
Qed.

(** ** The sequence which is injected *)

Definition text_key (k : key) : Prop :=
  k = k_any \/ k = k_unicode_output \/ w_typing_key k \/ k = ShiftLeft \/ k = AltRight_w.
Definition text_event (e : event) : Prop := text_key (ek e) /\ (es e = Up \/ es e = Down \/ e = ev0 k_any Not).

Lemma typing_input k s v hb : w_typing_key k -> send_input (Ev k s v) hb = ([IScan k false (kstate_eqb s Up)], hb).
Proof.
  intros ([K0 K1] & Km & Kp).
  assert (NB : make_button_input (Ev k s v) = None).
  { unfold make_button_input. cbn [ek].
    repeat match goal with |- context [k =? ?n] =>
      replace (k =? n) with false by (symmetry; apply N.eqb_neq; unfold ButtonLeft, ButtonRight, ButtonMiddle, ButtonBack, ButtonForward, WheelUp, WheelDown, WheelLeft, WheelRight; lia) end.
    reflexivity. }
  assert (L : N.land k 0xE000 = 0).
  { apply N.bits_inj. intros i. rewrite N.land_spec, N.bits_0. destruct (N.ltb_spec i 8) as [H|H].
    - assert (N.testbit 0xE000 i = false) as ->; [|apply andb_false_r].
      assert (Hc : i = 0 \/ i = 1 \/ i = 2 \/ i = 3 \/ i = 4 \/ i = 5 \/ i = 6 \/ i = 7) by lia.
      repeat destruct Hc as [->|Hc]; try reflexivity. subst. reflexivity.
    - assert (N.testbit k i = false) as ->; [|reflexivity]. apply N.bits_above_log2.
      assert (N.log2 k < 8); [|lia]. apply N.log2_lt_pow2; [exact K0|]. exact K1. }
  unfold send_input. rewrite NB. unfold make_key_input. cbn [ek es ev]. rewrite L. cbn [N.eqb negb].
  unfold is_w_modifier, w_modifiers in Km. cbn [existsb] in Km. repeat (apply orb_false_iff in Km; destruct Km as [? Km]).
  replace (k =? k_unicode_output) with false by (symmetry; apply N.eqb_neq; unfold k_unicode_output; lia).
  replace (k =? ShiftRight) with false by congruence.
  replace (k =? Pause_w) with false by (symmetry; apply N.eqb_neq; exact Kp).
  replace (k =? NumLock_w) with false by (symmetry; apply N.eqb_neq; unfold NumLock_w; lia).
  replace (k =? MetaLeft_w) with false by (symmetry; apply N.eqb_neq; unfold MetaLeft_w; lia).
  replace (k =? MetaRight_w) with false by (symmetry; apply N.eqb_neq; unfold MetaRight_w; lia).
  reflexivity.
Qed.

(** The modifiers an application takes as held are those which were pressed last. *)
Lemma held_step lay e hb st m : text_event e -> is_w_modifier m = true ->
  fst (fst (read_inputs lay st (fst (send_input e hb)))) m =
  if ek e =? m then match es e with Down => true | Up => false | _ => fst st m end else fst st m.
Proof.
  intros [K S] Hm. destruct e as [k s v]. cbn [ek es] in *.
  destruct K as [->|[->|[K|[->| ->]]]].
  - assert (k_any =? m = false) as ->.
    { apply N.eqb_neq. intros <-. vm_compute in Hm. discriminate Hm. }
    change (send_input (Ev k_any s v) hb) with ([IScan 0xF000 true (kstate_eqb s Up)], hb).
    cbn [fst read_inputs]. unfold read_input. cbn [physical_of fst snd].
    change (is_w_modifier (code_of (0xF000 mod 256, true))) with false. cbv beta iota.
    destruct (kstate_eqb s Up); [reflexivity|]. destruct (lay _ _ _); reflexivity.
  - assert (k_unicode_output =? m = false) as ->.
    { apply N.eqb_neq. intros <-. vm_compute in Hm. discriminate Hm. }
    assert (fst (send_input (Ev k_unicode_output s v) hb) = [] \/ exists c u, fst (send_input (Ev k_unicode_output s v) hb) = [IUnicode c u]) as [->|(c & u & ->)].
    { change (send_input (Ev k_unicode_output s v) hb) with
        (match make_key_input (Ev k_unicode_output s v) hb with (Some x, hb) => ([x], hb) | (None, hb) => ([], hb) end).
      unfold make_key_input. cbn [ek es ev]. change (k_unicode_output =? k_unicode_output) with true. cbv beta iota zeta.
      destruct (kstate_eqb s Up); match goal with |- context [?x =? 0] => destruct (x =? 0) end; cbn [fst]; eauto. }
    + reflexivity.
    + reflexivity.
  - rewrite typing_input by exact K. destruct K as ([K0 K1] & Km & Kp). cbn [fst read_inputs]. unfold read_input. cbn [physical_of].
    rewrite N.mod_small by exact K1. unfold code_of. cbn [fst snd]. rewrite N.add_0_r, Km.
    assert (k =? m = false) as ->.
    { apply N.eqb_neq. intros ->. congruence. }
    destruct (kstate_eqb s Up); [reflexivity|]. destruct (lay _ _ _); reflexivity.
  - destruct S as [->|[->|S]]; [| |discriminate S]; rewrite (N.eqb_sym ShiftLeft m); cbn; unfold ShiftLeft; destruct (m =? 42); reflexivity.
  - destruct S as [->|[->|S]]; [| |discriminate S]; rewrite (N.eqb_sym AltRight_w m); cbn; unfold AltRight_w; destruct (m =? 57400); reflexivity.
Qed.
Lemma held_inputs lay m : is_w_modifier m = true -> forall l hb st, Forall text_event l ->
  fst (fst (read_inputs lay st (fst (send_inputs l hb)))) m =
  fold_left (fun b e => if ek e =? m then match es e with Down => true | Up => false | _ => b end else b) l (fst st m).
Proof.
  intros Hm. induction l as [|e l IH]; intros hb st F; [reflexivity|]. cbn [send_inputs fold_left].
  pose proof (held_step lay e hb st m (Forall_inv F) Hm) as H1. destruct (send_input e hb) as [x h1]. cbn [fst] in H1.
  specialize (IH h1 (fst (read_inputs lay st x)) (Forall_inv_tail F)). destruct (send_inputs l h1) as [y h2]. cbn [fst] in *.
  rewrite reads_app. cbn [fst]. rewrite IH, H1. reflexivity.
Qed.

(** Which events there are *)
Definition good_stroke (x : stroke) : Prop :=
  (w_typing_key (st_key x) \/ st_key x = k_unicode_output) /\ In (st_mods x) [0; 1; 4].
Definition replaced (e : event) : event := Ev (replace_logical_key (ek e)) (es e) (ev e).
Lemma mods_text m prev : In m [0; 1; 4] -> In prev [0; 1; 4] ->
  Forall (fun e => text_event (replaced e)) (flat_map (type_output_mod m prev) w_mod_keys).
Proof.
  intros Hm Hp. cbn in Hm, Hp. destruct Hm as [<-|[<-|[<-|[]]]]; destruct Hp as [<-|[<-|[<-|[]]]];
    match goal with |- Forall _ ?t => let v := eval vm_compute in t in change t with v end;
    repeat (apply Forall_cons || apply Forall_nil); (split; [unfold text_key; cbn; tauto|cbn; tauto]).
Qed.
Lemma release_text prev : In prev [0; 1; 4] -> Forall (fun e => text_event (replaced e)) (w_release_mods prev).
Proof.
  intros Hp. cbn in Hp. destruct Hp as [<-|[<-|[<-|[]]]];
    match goal with |- Forall _ ?t => let v := eval vm_compute in t in change t with v end;
    repeat (apply Forall_cons || apply Forall_nil); (split; [unfold text_key; cbn; tauto|cbn; tauto]).
Qed.
Lemma output_text l : Forall good_stroke l -> forall prev, In prev [0; 1; 4] ->
  Forall (fun e => text_event (replaced e)) (fst (w_type_output l prev)) /\ In (snd (w_type_output l prev)) [0; 1; 4].
Proof.
  induction 1 as [|x l [Hk Hm] F IH]; intros prev Hp; cbn [w_type_output fst snd]; [split; [constructor|exact Hp]|].
  destruct (IH (st_mods x) Hm) as [I1 I2]. destruct (w_type_output l (st_mods x)) as [r p]. cbn [fst snd] in *.
  split; [|exact I2]. apply Forall_app. split; [now apply mods_text|].
  assert (Q : forall s v, s = Up \/ s = Down -> text_event (replaced (Ev (st_key x) s v))).
  { intros s v Hs. unfold replaced. cbn [ek es ev]. split; cbn [ek es].
    - destruct Hk as [Hk| ->]; [rewrite typing_logical by exact Hk; right; right; now left|right; now left].
    - tauto. }
  constructor; [apply Q; auto|]. constructor; [apply Q; auto|exact I1].
Qed.

Lemma pressed_in k l : ClientSpec.pressed_after k l = true -> exists e, In e l /\ ek e = k /\ es e = Down.
Proof.
  unfold ClientSpec.pressed_after. induction l as [|e l IH] using rev_ind; [discriminate|]. rewrite fold_left_app. cbn [fold_left].
  destruct (N.eqb_spec (ek e) k) as [E|E].
  - destruct (es e) eqn:S; try discriminate; intros H;
      solve [exists e; split; [apply in_or_app; right; now left|auto]
            |destruct (IH H) as (x & Hx & Q); exists x; split; [apply in_or_app; now left|exact Q]].
  - intros H. destruct (IH H) as (x & Hx & Q). exists x. split; [apply in_or_app; now left|exact Q].
Qed.

Lemma injected_shape l : Forall good_stroke l -> exists x u v,
  w_injected l = ev0 k_any Not :: x ++ v /\
  replace_logical_keys (fst (w_type_output l 0)) ++ replace_logical_keys (w_release_mods (snd (w_type_output l 0))) = x ++ u /\
  releases u /\ releases v /\ Forall text_event (w_injected l) /\ forall k, ClientSpec.pressed_after k (w_injected l) = false.
Proof.
  intros F. destruct (output_text l F 0 (or_introl eq_refl)) as [T1 T2]. pose proof (release_text _ T2) as T3.
  assert (A : exists sq u, w_string_output l = sq ++ u /\ Forall (fun e => es e = Up) u /\ sq <> [] /\
    w_injected l = ensure_all_keys_up (replace_logical_keys sq)).
  { unfold w_injected. destruct (negb (strokes_have_modifier l) && all_pressed_at_once (w_string_output l)).
    - destruct (remove_ups (w_string_output l)) as (r & E & Fr). eexists _, r. split; [exact E|]. split; [exact Fr|]. split; [|reflexivity].
      intros N. rewrite N in E. cbn [app] in E. unfold w_string_output in E. destruct (w_type_output l 0). subst r.
      apply Forall_inv in Fr. discriminate Fr.
    - exists (w_string_output l), []. rewrite app_nil_r. repeat split; [constructor|].
      unfold w_string_output. destruct (w_type_output l 0). discriminate. }
  destruct A as (sq & u & E & Fu & NE & EI). rewrite EI. unfold w_string_output in E.
  destruct (w_type_output l 0) as [o p]. cbn [fst snd] in *. destruct sq as [|a sq]; [congruence|]. cbn [app] in E. injection E as <- E.
  assert (TS : Forall text_event (replace_logical_keys sq)).
  { unfold replace_logical_keys. apply Forall_map.
    assert (Forall (fun e => text_event (replaced e)) (sq ++ u)) as Fa by (rewrite <- E; apply Forall_app; now split).
    apply Forall_app in Fa. apply Fa. }
  destruct (ensure_appends (replace_logical_keys (ev0 k_any Not :: sq))) as (w & Ew & _ & Fw). rewrite Ew.
  change (replace_logical_keys (ev0 k_any Not :: sq)) with (ev0 k_any Not :: replace_logical_keys sq) in *.
  exists (replace_logical_keys sq), (replace_logical_keys u), w. split; [reflexivity|].
  split; [rewrite <- !logical_app, E; reflexivity|].
  split; [unfold releases, replace_logical_keys; apply Forall_map; exact Fu|].
  split; [eapply Forall_impl; [|exact Fw]; intros e [He _]; rewrite He; reflexivity|].
  split; [|intros k; rewrite <- Ew; apply ensure_releases].
  assert (TA : Forall text_event (ev0 k_any Not :: replace_logical_keys sq)).
  { constructor; [|exact TS]. split; [now left|auto]. }
  apply Forall_app. split; [exact TA|]. apply Forall_forall. intros e He. rewrite Forall_forall in Fw. destruct (Fw e He) as [E1 E2].
  split; [|left; rewrite E1; reflexivity]. destruct (pressed_in _ _ E2) as (z & Hz & Ez & _). rewrite Forall_forall in TA.
  destruct (TA z Hz) as [Q _]. now rewrite <- Ez.
Qed.

(** What an application reads *)
Lemma injected_reads lay d l hb : w_right_for lay d -> no_zero_key lay -> Forall (fun c => c < 0x10000) l -> fst hb = 0 ->
  Forall good_stroke (flat_map (w_type_char d) l) ->
  let q := w_injected (flat_map (w_type_char d) l) in
  fst (snd (send_inputs q hb)) = 0 /\
  exists held, read_inputs lay fresh_reader (fst (send_inputs q hb)) = ((held, None), l) /\
    forall m, is_w_modifier m = true -> held m = false.
Proof.
  intros HR HZ Hl Hh G q. destruct (injected_shape _ G) as (x & u & v & E & S & Fu & Fv & Ft & Fp). fold q in E, Ft, Fp.
  destruct (chars_read lay d HR l 0 (fun _ => false) hb Hl Hh (or_introl eq_refl)) as (A & B & h & C & R).
  { repeat split. }
  cbv zeta in *. set (o := w_type_output (flat_map (w_type_char d) l) 0) in *.
  assert (RM : releases (replace_logical_keys (w_release_mods (snd o)))).
  { unfold releases, replace_logical_keys. apply Forall_map. unfold w_release_mods. apply Forall_flat_map, Forall_forall. intros [m k] _.
    cbn [fst snd]. destruct (has_bits m (snd o)); repeat constructor. }
  (* all of it *)
  destruct (up_inputs _ RM (snd (send_inputs (replace_logical_keys (fst o)) hb))) as [U1 U2].
  assert (W : fst (snd (send_inputs (x ++ u) hb)) = 0 /\
    snd (read_inputs lay (fun _ => false, None) (fst (send_inputs (x ++ u) hb))) = l /\
    snd (fst (read_inputs lay (fun _ => false, None) (fst (send_inputs (x ++ u) hb)))) = None).
  { rewrite <- S, inputs_app. cbn [fst snd]. split; [rewrite U2; exact B|]. rewrite reads_app, C. cbn [fst snd].
    destruct (up_reads lay _ (h, None) U1) as [V1 V2]. rewrite V1, V2, app_nil_r. split; reflexivity. }
  destruct W as (W1 & W2 & W3). rewrite inputs_app in W1, W2, W3. cbn [fst snd] in W1, W2, W3. rewrite reads_app in W2, W3. cbn [fst snd] in W2, W3.
  destruct (up_inputs u Fu (snd (send_inputs x hb))) as [X1 X2]. rewrite X2 in W1.
  destruct (up_reads lay _ (fst (read_inputs lay (fun _ => false, None) (fst (send_inputs x hb)))) X1) as [Y1 Y2].
  rewrite Y1, app_nil_r in W2. rewrite Y2 in W3.
  (* what is sent *)
  destruct (up_inputs v Fv (snd (send_inputs x hb))) as [X3 X4].
  destruct (up_reads lay _ (fst (read_inputs lay (fun _ => false, None) (fst (send_inputs x hb)))) X3) as [Y3 Y4].
  assert (SA : send_inputs q hb = (IScan 0xF000 true false :: fst (send_inputs x hb) ++ fst (send_inputs v (snd (send_inputs x hb))),
    snd (send_inputs v (snd (send_inputs x hb))))).
  { rewrite E. cbn [send_inputs]. change (send_input (ev0 k_any Not) hb) with ([IScan 0xF000 true false], hb). cbv beta iota.
    rewrite inputs_app. reflexivity. }
  assert (RA : read_input lay fresh_reader (IScan 0xF000 true false) = (fresh_reader, [])).
  { unfold read_input, fresh_reader. cbn [physical_of]. change (code_of (0xF000 mod 256, true)) with 0xE000.
    change (is_w_modifier 0xE000) with false. cbv beta iota. cbn [snd fst]. now rewrite HZ. }
  assert (RQ : snd (read_inputs lay fresh_reader (fst (send_inputs q hb))) = l /\
               snd (fst (read_inputs lay fresh_reader (fst (send_inputs q hb)))) = None).
  { rewrite SA. cbn [fst read_inputs]. rewrite RA. unfold fresh_reader. rewrite reads_app. cbn [fst snd].
    rewrite Y3, app_nil_r, W2, Y4, W3. split; reflexivity. }
  split; [rewrite SA; cbn [snd]; rewrite X4; exact W1|].
  pose proof (fun m Hm => held_inputs lay m Hm q hb fresh_reader Ft) as HH.
  destruct (read_inputs lay fresh_reader (fst (send_inputs q hb))) as [[held dead] cs]. cbn [fst snd] in RQ, HH. destruct RQ as [-> ->].
  exists held. split; [reflexivity|]. intros m Hm. rewrite (HH m Hm). exact (Fp m).
Qed.
