(** Proofs about the information about the next key (C116). *)
From Coq Require Import String Ascii List Arith NArith ZArith Bool Lia.
From Verif Require Import Base Key Text Match ParseSeq Stage Config Serial Client ClientSpec KeyInfoSpec.
Import ListNotations.
Local Open Scope N_scope.

(** ** The text *)

Lemma text_lines_one t : one_line t -> text_lines t = [t].
Proof.
  induction t as [|c r IH]; intros H; [reflexivity|]. cbn [text_lines].
  destruct (Ascii.eqb_spec c line_end) as [E|E]; [elim H; left; exact E|].
  rewrite IH; [reflexivity|]. intros K. apply H. right. exact K.
Qed.
Lemma text_lines_cons a r : one_line a -> text_lines (a ++ line_end :: r) = a :: text_lines r.
Proof.
  induction a as [|c x IH]; intros H; [cbn [app text_lines]; rewrite Ascii.eqb_refl; reflexivity|].
  cbn [app text_lines]. destruct (Ascii.eqb_spec c line_end) as [E|E]; [elim H; left; exact E|].
  rewrite IH; [reflexivity|]. intros K. apply H. right. exact K.
Qed.
Lemma joined_lines ls : ls <> [] -> Forall one_line ls -> text_lines (removelast (flat_map (fun l => l ++ [nl]) ls)) = ls.
Proof.
  induction ls as [|a r IH]; intros NE F; [congruence|]. inversion F as [|x y F1 F2]; subst x y.
  cbn [flat_map]. destruct r as [|b s].
  - cbn [flat_map]. rewrite app_nil_r, removelast_last. apply text_lines_one. exact F1.
  - rewrite <- app_assoc. rewrite removelast_app.
    + change ([nl] ++ flat_map (fun l => l ++ [nl]) (b :: s)) with (line_end :: flat_map (fun l => l ++ [nl]) (b :: s)).
      assert (X : flat_map (fun l => l ++ [nl]) (b :: s) <> []).
      { cbn [flat_map]. destruct b; discriminate. }
      change (removelast (line_end :: flat_map (fun l => l ++ [nl]) (b :: s)))
        with (removelast ([line_end] ++ flat_map (fun l => l ++ [nl]) (b :: s))).
      rewrite (removelast_app [line_end] X). cbn [app]. rewrite text_lines_cons by exact F1.
      rewrite IH; [reflexivity|discriminate|exact F2].
    + destruct b; discriminate.
Qed.

Lemma one_line_app a b : one_line a -> one_line b -> one_line (a ++ b).
Proof. intros A B H. apply in_app_or in H. destruct H; auto. Qed.
Lemma one_line_entry label value : one_line label -> one_line value -> one_line (entry label value).
Proof.
  intros A B. unfold entry. repeat apply one_line_app; auto; intros H; cbn in H;
    repeat (destruct H as [H|H]; [discriminate H|]); exact H.
Qed.

Lemma hex_digit d : d < 16 -> hex_value (ascii_of_N (if d <? 10 then 48 + d else 55 + d)) = Some d.
Proof.
  intros H. assert (K : In d [0;1;2;3;4;5;6;7;8;9;10;11;12;13;14;15]).
  { cbn [In]. lia. }
  cbn [In] in K. repeat (destruct K as [K|K]; [subst d; vm_compute; reflexivity|]). destruct K.
Qed.
Lemma hex_number_app a : forall b acc n, hex_number acc a = Some n -> hex_number acc (a ++ b) = hex_number n b.
Proof.
  induction a as [|c r IH]; intros b acc n H; [injection H as <-; reflexivity|].
  cbn [app hex_number] in *. destruct (hex_value c); [|discriminate]. apply IH. exact H.
Qed.
Lemma hex_digits_number n : forall v, v < 16 ^ N.of_nat n -> hex_number 0 (hex_digits n v) = Some v /\ length (hex_digits n v) = n.
Proof.
  induction n as [|m IH]; intros v H.
  - cbn in H. split; [|reflexivity]. cbn. f_equal. lia.
  - rewrite Nat2N.inj_succ, N.pow_succ_r' in H.
    destruct (IH (v / 16)) as [A B]; [apply N.div_lt_upper_bound; lia|].
    cbn [hex_digits]. rewrite (hex_number_app _ _ _ _ A). cbn [hex_number]. cbv zeta.
    rewrite hex_digit by (apply N.mod_lt; lia). split; [f_equal; rewrite (N.div_mod v 16) at 3; lia|].
    rewrite app_length, B. cbn [length]. lia.
Qed.
Lemma hex_value_inj a b d : hex_value a = Some d -> hex_value b = Some d -> a = b.
Proof.
  unfold hex_value. rewrite <- (ascii_N_embedding a), <- (ascii_N_embedding b).
  rewrite !N_ascii_embedding by apply N_ascii_bounded. intros H1 H2. f_equal.
  destruct ((48 <=? N_of_ascii a) && (N_of_ascii a <=? 57)) eqn:A1; [|destruct ((65 <=? N_of_ascii a) && (N_of_ascii a <=? 70)) eqn:A2; [|discriminate]];
  destruct ((48 <=? N_of_ascii b) && (N_of_ascii b <=? 57)) eqn:B1; try (destruct ((65 <=? N_of_ascii b) && (N_of_ascii b <=? 70)) eqn:B2; [|discriminate]);
  injection H1 as H1; injection H2 as H2;
  repeat match goal with H : _ && _ = true |- _ => apply andb_true_iff in H; destruct H as [?H ?H] end;
  repeat match goal with H : (_ <=? _) = true |- _ => apply N.leb_le in H end; lia.
Qed.
Lemma hex_value_small c d : hex_value c = Some d -> d < 16.
Proof.
  unfold hex_value.
  destruct ((48 <=? N_of_ascii c) && (N_of_ascii c <=? 57)) eqn:A1; [|destruct ((65 <=? N_of_ascii c) && (N_of_ascii c <=? 70)) eqn:A2; [|discriminate]];
  intros H1; injection H1 as H1;
  repeat match goal with H : _ && _ = true |- _ => apply andb_true_iff in H; destruct H as [?H ?H] end;
  repeat match goal with H : (_ <=? _) = true |- _ => apply N.leb_le in H end; lia.
Qed.
Lemma hex_number_bound t : forall acc n, hex_number acc t = Some n ->
  acc * 16 ^ N.of_nat (length t) <= n < (acc + 1) * 16 ^ N.of_nat (length t).
Proof.
  induction t as [|c r IH]; intros acc n H; [injection H as <-; cbn; lia|].
  cbn [hex_number] in H. destruct (hex_value c) as [d|] eqn:E; [|discriminate]. apply hex_value_small in E.
  specialize (IH _ _ H). cbn [length]. rewrite Nat2N.inj_succ, N.pow_succ_r'.
  set (x := 16 ^ N.of_nat (length r)) in *. assert (0 < x) by (unfold x; apply N.neq_0_lt_0, N.pow_nonzero; lia). nia.
Qed.
Lemma hex_number_inj a : forall b acc acc' n, length a = length b -> hex_number acc a = Some n -> hex_number acc' b = Some n ->
  acc = acc' /\ a = b.
Proof.
  induction a as [|c r IH]; intros b acc acc' n L H1 H2.
  - destruct b; [|discriminate]. cbn in H1, H2. split; congruence.
  - destruct b as [|c' r']; [discriminate|]. injection L as L. cbn [hex_number] in *.
    destruct (hex_value c) as [d|] eqn:E; [|discriminate]. destruct (hex_value c') as [d'|] eqn:E'; [|discriminate].
    destruct (IH r' _ _ _ L H1 H2) as [X Y].
    pose proof (hex_value_small _ _ E). pose proof (hex_value_small _ _ E').
    assert (acc = acc' /\ d = d') as [A B] by lia. subst d'.
    split; [exact A|]. f_equal; [eapply hex_value_inj; eassumption|exact Y].
Qed.

Lemma entry_inj label value label' value' : In label info_labels -> In label' info_labels ->
  entry label value = entry label' value' -> label = label' /\ value = value'.
Proof.
  intros H H' E. unfold entry in E. cbn in H, H'.
  repeat (destruct H as [H|H]; [|]); try contradiction; subst label;
  repeat (destruct H' as [H'|H']; [|]); try contradiction; subst label';
    cbn in E; first [discriminate E|injection E as E; apply app_inj_tail in E; destruct E as [E _]; split; [reflexivity|exact E]].
Qed.

Lemma info_tells key_name system k name id w : k < 65536 -> all_one_line key_name system k name id w ->
  tells key_name system k name id w (key_info_text key_name system k name id w).
Proof.
  intros HK (O1 & O2 & O3 & O4 & O5 & O6 & O7). unfold key_info_text. cbv zeta.
  set (line := fun label value : text => match value with [] => [] | _ => [label ++ T " = '" ++ value ++ T "'"] end).
  set (ls := (match key_name k with Some n => [T "key_name = '" ++ n ++ T "'"] | None => [] end) ++
    [T "scan_code = 0x" ++ hex_digits 4 k] ++ [T "system = '" ++ system ++ T "'"] ++
    line (T "title") (w_title w) ++ line (T "class") (w_class w) ++ line (T "path") (w_path w) ++
    line (T "device") name ++ line (T "device-id") id).
  assert (D : forall label value x, In x (line label value) <-> value <> [] /\ x = entry label value).
  { intros label value x. unfold line, entry. destruct value as [|c r].
    - split; [intros []|intros [H _]; congruence].
    - split; [intros [H|[]]; subst x; split; [discriminate|reflexivity]|intros [_ ->]; left; reflexivity]. }
  destruct (hex_digits_number 4 k) as [HX HL]; [cbn; lia|].
  assert (M : forall x, In x ls <->
    (exists n, key_name k = Some n /\ x = entry (T "key_name") n) \/ x = T "scan_code = 0x" ++ hex_digits 4 k \/
    x = entry (T "system") system \/ (w_title w <> [] /\ x = entry (T "title") (w_title w)) \/
    (w_class w <> [] /\ x = entry (T "class") (w_class w)) \/ (w_path w <> [] /\ x = entry (T "path") (w_path w)) \/
    (name <> [] /\ x = entry (T "device") name) \/ (id <> [] /\ x = entry (T "device-id") id)).
  { intros x. unfold ls. rewrite !in_app_iff, !D.
    assert (A : In x (match key_name k with Some n => [T "key_name = '" ++ n ++ T "'"] | None => [] end) <->
      exists n, key_name k = Some n /\ x = entry (T "key_name") n).
    { destruct (key_name k) as [n|]; [|split; [intros []|intros (n & H & _); discriminate]].
      split; [intros [H|[]]; exists n; split; [reflexivity|symmetry; exact H]|intros (m & H & ->); injection H as <-; left; reflexivity]. }
    rewrite A. assert (B : forall y, In x [y] <-> x = y) by (intros y; split; [intros [H|[]]; congruence|intros ->; left; reflexivity]).
    rewrite !B. reflexivity. }
  assert (LB : forall s, In (T s) info_labels -> one_line (T s)).
  { intros s H. unfold info_labels in H. cbn [map In] in H.
    repeat (destruct H as [H|H]; [rewrite <- H; intros K; cbn in K; repeat (destruct K as [K|K]; [discriminate K|]); exact K|]). destruct H. }
  assert (F : Forall one_line ls).
  { apply Forall_forall. intros x X. apply M in X.
    destruct X as [(n & X & ->)|[X|[X|[[_ X]|[[_ X]|[[_ X]|[[_ X]|[_ X]]]]]]]]; try subst x;
      try (apply one_line_entry; [apply LB; cbn; auto 10|auto]).
    apply one_line_app; [intros K; cbn in K; repeat (destruct K as [K|K]; [discriminate K|]); exact K|].
    intros K. assert (Z : forall n v, ~ In line_end (hex_digits n v)).
    { clear. induction n as [|m IH]; intros v K; [destruct K|]. cbn [hex_digits] in K. apply in_app_or in K.
      destruct K as [K|[K|[]]]; [exact (IH _ K)|]. cbv zeta in K.
      pose proof (hex_digit (v mod 16) (N.mod_lt v 16 ltac:(lia))) as H. rewrite K in H. vm_compute in H. discriminate. }
    exact (Z _ _ K). }
  assert (NE : ls <> []).
  { intros K. pose proof (proj2 (M (T "scan_code = 0x" ++ hex_digits 4 k)) (or_intror (or_introl eq_refl))) as H. rewrite K in H. destruct H. }
  change (tells key_name system k name id w (removelast (flat_map (fun l => l ++ [nl]) ls))).
  unfold tells. rewrite (joined_lines ls NE F). split.
  - intros label value HLb _. rewrite M.
    assert (NS : entry label value <> T "scan_code = 0x" ++ hex_digits 4 k).
    { clear - HLb. unfold info_labels in HLb. cbn [map In] in HLb. intros K.
      repeat (destruct HLb as [HLb|HLb]; [subst label; cbn in K; discriminate K|]). destruct HLb. }
    split.
    + assert (G : forall l' v', In l' info_labels -> entry label value = entry l' v' ->
                says key_name system k name id w l' v' -> says key_name system k name id w label value).
      { intros l' v' L E X. destruct (entry_inj _ _ _ _ HLb L E) as [-> ->]. exact X. }
      intros [(n & Z & X)|[X|[X|[[Z X]|[[Z X]|[[Z X]|[[Z X]|[Z X]]]]]]]]; [|contradiction (NS X)| | | | | |];
        (eapply G; [|exact X|constructor; exact Z || constructor]); unfold info_labels; cbn [map In]; auto 10.
    + intros H. destruct H as [n X| |X|X|X|X|X]; [left; exists n; auto|..]; right; right; auto 10.
  - intros digits. rewrite M. split.
    + intros [(n & X & Y)|[X|[X|[[Z X]|[[Z X]|[[Z X]|[[Z X]|[Z X]]]]]]]]; try discriminate.
      apply app_inv_head in X. subst digits. auto.
    + intros [X Y]. right. left. f_equal. eapply hex_number_inj; [|exact X|exact HX]. congruence.
Qed.

(** ** The trace *)

Section Info.
Variable search : text -> text -> bool.
Variable typer : text -> list stroke.
Variable key_name : key -> option text.
Variable system : text.
Variable sent : nat -> bool.
Variable focus : nat -> option window.
Variable disk : nat -> files.

Definition exactly (k : key) (name id : text) (w : window) (t : text) : Prop := t = key_info_text key_name system k name id w.
Definition Q (c : client) : Prop := infos_about exactly (cl_trace c) /\ cl_window c = window_of (cl_trace c).

Lemma infos_snoc P t e : infos_about P t ->
  (forall info, info_of e = Some info -> exists p1 k name id p2, t = p1 ++ FGot (DNextKeyInfo k name id) :: p2 /\
    Forall (fun x => info_of x <> None) p2 /\ P k name id (window_of p1) info) ->
  infos_about P (t ++ [e]).
Proof.
  intros H HE p x q info EQ HI.
  destruct q as [|y r] using rev_ind.
  - apply app_inj_tail in EQ. destruct EQ as [<- <-]. apply HE. exact HI.
  - clear IHr. change (p ++ x :: r ++ [y]) with (p ++ (x :: r) ++ [y]) in EQ. rewrite app_assoc in EQ.
    apply app_inj_tail in EQ. destruct EQ as [-> _]. exact (H p x r info eq_refl HI).
Qed.
Definition plain (e : ceffect) : Prop := info_of e = None /\ match e with FWindow _ => False | _ => True end.
Lemma window_plain t e : match e with FWindow _ => False | _ => True end -> window_of (t ++ [e]) = window_of t.
Proof. intros H. unfold window_of. rewrite fold_left_app. cbn [fold_left]. destruct e; try contradiction; reflexivity. Qed.
Lemma Q_emit e c : plain e -> Q c -> Q (emit e c).
Proof.
  intros [H1 H2] [A B]. split; cbn [emit cl_trace cl_window].
  - apply infos_snoc; [exact A|]. rewrite H1. discriminate.
  - rewrite window_plain by exact H2. exact B.
Qed.
Ltac plain := split; [reflexivity|exact Logic.I].

Lemma Q_send m c : Q c -> Q (snd (send sent m c)).
Proof.
  intros H. unfold send. cbv zeta. cbn [snd]. destruct (negb (cl_broken c) && sent (cl_sends c)); [apply Q_emit; [plain|]|]; exact H.
Qed.
Lemma Q_loaded n r c : Q c -> Q (loaded n r c).
Proof. intros H. destruct r; [apply Q_emit; [plain|]|]; exact H. Qed.
Lemma Q_update b c : Q c -> Q (snd (update_file disk b c)).
Proof.
  intros H. unfold update_file. destruct (file_update _ b (cl_file c)) as [r f]. cbn [snd]. apply Q_loaded. exact H.
Qed.
Lemma Q_load n c : Q c -> Q (snd (load_config disk n c)).
Proof.
  intros H. unfold load_config. destruct (text_eqb (cf_name (cl_file c)) n); [apply Q_update; exact H|].
  destruct (swap_recent n (cl_file c) (cl_recent c)) as [[f l]|]; [apply Q_update; exact H|].
  destruct (file_load (disk (cl_updates c)) n) as [r f]. cbv zeta.
  assert (K : Q (loaded n r (c_updates (S (cl_updates c)) c))) by (apply Q_loaded; exact H).
  destruct (match r with Some ok => ok | None => false end); cbn [snd];
    destruct (cf_name (cl_file (loaded n r (c_updates (S (cl_updates c)) c)))); exact K.
Qed.
Lemma Q_contexts c : Q c -> Q (snd (update_active_contexts search focus c)).
Proof.
  intros H. unfold update_active_contexts. destruct (negb (cl_active c)); [exact H|]. cbv zeta.
  set (c1 := match focus (cl_focus c) with
             | Some w => emit (FWindow w) (c_window w (S (cl_focus c)) c)
             | None => c_window (cl_window c) (S (cl_focus c)) c
             end).
  assert (K : Q c1).
  { unfold c1. destruct (focus (cl_focus c)) as [w|]; [|exact H]. destruct H as [A B].
    split; cbn [emit cl_trace cl_window c_window].
    - apply infos_snoc; [exact A|]. discriminate.
    - unfold window_of. rewrite fold_left_app. reflexivity. }
  match goal with |- Q (snd (if ?b then _ else _)) => destruct b; [exact K|] end.
  destruct (zlist_eqb _ _); exact K.
Qed.
Lemma Q_send_config c : Q c -> Q (snd (send_config search sent focus c)).
Proof.
  intros H. unfold send_config. pose proof (Q_send (SConfig (cl_config c)) c H) as K.
  destruct (send sent (SConfig (cl_config c)) c) as [ok c1]. cbn [snd] in K.
  destruct ok; cbn [negb]; [|exact K]. cbv zeta. cbn [snd].
  set (c2 := c_contexts [] (c_aliases (cfg_aliases (cl_config c1)) c1)).
  assert (K2 : Q c2) by exact K.
  destruct (cl_active c2); [|exact K2]. apply Q_send, Q_contexts. exact K2.
Qed.
Lemma Q_lost c : Q c -> Q (on_server_disconnected c).
Proof. intros H. unfold on_server_disconnected. apply Q_emit; [plain|]. exact H. Qed.
Lemma Q_connect c : Q c -> Q (snd (connect search sent focus c)).
Proof. intros H. unfold connect. apply Q_send_config. exact H. Qed.
Lemma Q_key_state s k c : Q c -> Q (send_virtual_key_state s k c).
Proof.
  intros H. unfold send_virtual_key_state, get_virtual_key_state, answer.
  destruct (is_virtual_key k); [destruct (nth_error _ _)|]; (apply Q_emit; [plain|]); exact H.
Qed.
Lemma Q_notify k l : forall c, Q c -> Q (snd (notify_loop k l c)).
Proof.
  induction l as [|x r IH]; intros c H; [exact H|]. cbn [notify_loop].
  destruct (N.eqb (ct_notify x) k).
  - cbv zeta. specialize (IH (send_virtual_key_state (ct_socket x) k c) (Q_key_state _ _ _ H)).
    destruct (notify_loop k r _) as [r' c']. exact IH.
  - specialize (IH c H). destruct (notify_loop k r c) as [r' c']. exact IH.
Qed.

(** While an information is passed on *)
Definition R k name id t (c : client) : Prop := Q c /\ exists p1 p2,
  cl_trace c = p1 ++ FGot (DNextKeyInfo k name id) :: p2 /\ Forall (fun x => info_of x <> None) p2 /\
  exactly k name id (window_of p1) t.
Lemma R_emit k name id t e c : info_of e = Some t -> R k name id t c -> R k name id t (emit e c).
Proof.
  intros H [[A B] (p1 & p2 & C & D & F)]. split; [split|]; cbn [emit cl_trace cl_window].
  - apply infos_snoc; [exact A|]. intros info X. rewrite H in X. injection X as <-. exists p1, k, name, id, p2. auto.
  - rewrite window_plain; [exact B|]. destruct e; try exact Logic.I. discriminate.
  - exists p1, (p2 ++ [e]). split; [rewrite C, <- app_assoc; reflexivity|]. split; [|exact F].
    apply Forall_app. split; [exact D|]. constructor; [rewrite H; discriminate|constructor].
Qed.
Lemma R_reply k name id t l : forall c, R k name id t c -> R k name id t (snd (reply_loop t l c)).
Proof.
  induction l as [|x r IH]; intros c H; [exact H|]. cbn [reply_loop]. cbv zeta.
  set (c1 := if ct_info x then _ else c).
  assert (K : R k name id t c1).
  { unfold c1. destruct (ct_info x); [apply R_emit; [reflexivity|]|]; exact H. }
  specialize (IH c1 K). destruct (reply_loop t r c1) as [[b r'] c']. exact IH.
Qed.
Lemma Q_server m c : Q c -> Q (on_server_message key_name system m c).
Proof.
  intros H. unfold on_server_message. cbv zeta. assert (K : Q (emit (FGot m) c)) by (apply Q_emit; [plain|exact H]).
  destruct m as [i|k st|k name id].
  - destruct (Z.leb 0 i); [|exact K]. destruct (nth_error _ _); [|exact K]. apply Q_emit; [plain|]. exact K.
  - unfold on_virtual_key_state_changed. destruct (is_virtual_key k); [|exact K]. cbv zeta.
    set (c1 := if Nat.ltb _ _ then _ else _).
    assert (K1 : Q c1) by (unfold c1; destruct (Nat.ltb _ _); exact K).
    pose proof (Q_notify k (cl_controls c1) c1 K1) as K2. destruct (notify_loop k (cl_controls c1) c1) as [l c2]. exact K2.
  - set (c0 := emit (FGot (DNextKeyInfo k name id)) c) in *.
    set (t := key_info_text key_name system k name id (cl_window c0)).
    assert (K1 : R k name id t c0).
    { split; [exact K|]. exists (cl_trace c), []. split; [reflexivity|]. split; [constructor|].
      unfold exactly, t, c0. cbn [emit cl_window]. destruct H as [_ ->]. reflexivity. }
    pose proof (R_reply k name id t (cl_controls c0) c0 K1) as K2.
    destruct (reply_loop t (cl_controls c0) c0) as [[b l] c2]. cbn [snd] in K2.
    destruct b; [exact (proj1 K2)|]. apply (R_emit k name id t); [reflexivity|]. exact K2.
Qed.
Lemma Q_close l : forall c, Q c -> Q (fold_left (fun c x => emit (FClosed (ct_socket x)) c) l c).
Proof. induction l as [|x r IH]; intros c H; [exact H|]. cbn [fold_left]. apply IH, Q_emit; [plain|exact H]. Qed.
Lemma Q_answer_bool s b c : Q c -> Q (answer_bool s b c).
Proof. intros H. apply Q_emit; [plain|exact H]. Qed.
Lemma Q_asked s m c : Q c -> Q (on_control_message search typer sent focus disk s m c).
Proof.
  intros H. unfold on_control_message. cbv zeta. assert (K : Q (emit (FAsked s m) c)) by (apply Q_emit; [plain|exact H]).
  set (c1 := emit (FAsked s m) c) in *.
  destruct m as [n|n x|n|id|name| |t|t].
  - apply Q_key_state. exact K.
  - apply Q_key_state, Q_send. exact K.
  - unfold on_toggle_requested. destruct (N.eqb _ 0); [apply Q_key_state|]; exact K.
  - apply Q_key_state. unfold on_set_instance_id. destruct (get_control s (cl_controls c1)) as [x|]; [|exact K].
    destruct (text_eqb (ct_id x) id); [exact K|]. cbv zeta.
    change (Q (disconnect_by_instance_id id c1)).
    unfold disconnect_by_instance_id. destruct (trivial_id id); [exact K|]. cbv zeta. apply Q_close. exact K.
  - pose proof (Q_load name c1 K) as K2. destruct (load_config disk name c1) as [ok c2]. cbn [snd] in K2.
    destruct ok.
    + pose proof (Q_send_config c2 K2) as K3. destruct (send_config search sent focus c2) as [ok c3]. apply Q_answer_bool. exact K3.
    + apply Q_answer_bool. exact K2.
  - apply Q_send. exact K.
  - destruct (parse_injected typer t); apply Q_answer_bool; [apply Q_send|]; exact K.
  - destruct (parse_injected typer t); apply Q_answer_bool; [apply Q_send|]; exact K.
Qed.
Lemma Q_fold {A} (f : client -> A -> client) l : (forall c x, Q c -> Q (f c x)) -> forall c, Q c -> Q (fold_left f l c).
Proof. intros H. induction l as [|x r IH]; intros c K; [exact K|]. cbn [fold_left]. apply IH, H, K. Qed.
Lemma Q_controls reads l : forall c, Q c -> Q (control_loop search typer sent focus disk reads l c).
Proof.
  induction l as [|s r IH]; intros c H; [exact H|]. cbn [control_loop].
  destruct (get_control s (cl_controls c)); [|apply IH; exact H]. destruct (reads s) as [ms ok]. cbv zeta. apply IH.
  assert (K : Q (fold_left (fun c m => on_control_message search typer sent focus disk s m c) ms c)).
  { apply Q_fold; [|exact H]. intros; apply Q_asked; assumption. }
  destruct ok; [exact K|]. apply Q_emit; [plain|]. exact K.
Qed.
Lemma Q_turn t c : Q c -> Q (snd (loop_turn search typer key_name system sent focus disk t c)).
Proof.
  intros H. unfold loop_turn.
  assert (K : Q (snd (if tu_auto t then update_file disk true c else (false, c)))).
  { destruct (tu_auto t); [apply Q_update|]; exact H. }
  destruct (if tu_auto t then update_file disk true c else (false, c)) as [ch c1]. cbn [snd] in K.
  assert (K2 : Q (snd (if ch then send_config search sent focus c1 else (true, c1)))).
  { destruct ch; [apply Q_send_config|]; exact K. }
  destruct (if ch then send_config search sent focus c1 else (true, c1)) as [ok c2]. cbn [snd] in K2.
  destruct ok; cbn [negb]; [|exact K2].
  pose proof (Q_contexts c2 K2) as K3. destruct (update_active_contexts search focus c2) as [ch2 c3]. cbn [snd] in K3.
  assert (K4 : Q (snd (if ch2 then send_active_contexts sent c3 else (true, c3)))).
  { destruct ch2; [apply Q_send|]; exact K3. }
  destruct (if ch2 then send_active_contexts sent c3 else (true, c3)) as [ok2 c4]. cbn [snd] in K4.
  destruct ok2; cbn [negb]; [|exact K4]. cbv zeta.
  assert (K5 : Q (fold_left (fun c m => on_server_message key_name system m c) (fst (tu_server t)) c4)).
  { apply Q_fold; [|exact K4]. intros; apply Q_server; assumption. }
  destruct (negb (snd (tu_server t))); [exact K5|]. cbn [snd]. unfold read_control_messages. apply Q_controls.
  destruct (tu_accept t); [|exact K5]. apply Q_emit; [plain|]. exact K5.
Qed.
Lemma Q_step s c : Q c -> Q (snd (client_step search typer key_name system sent focus disk s c)).
Proof.
  intros H. destruct s as [t| | |]; cbn [client_step snd].
  - pose proof (Q_turn t c H) as K. destruct (loop_turn search typer key_name system sent focus disk t c) as [ok c1].
    destruct ok; [exact K|]. apply Q_connect, Q_lost. exact K.
  - unfold toggle_active. cbv zeta. apply Q_send.
    set (c1 := emit (FActive (negb (cl_active c))) (c_active (negb (cl_active c)) c)).
    assert (K : Q c1) by (apply Q_emit; [plain|exact H]).
    destruct (cl_active c1); [apply Q_contexts|]; exact K.
  - apply Q_send_config, Q_update. exact H.
  - apply Q_send. exact H.
Qed.
Lemma Q_run l : forall c, Q c -> Q (client_run search typer key_name system sent focus disk l c).
Proof.
  induction l as [|s r IH]; intros c H; [exact H|]. cbn [client_run]. pose proof (Q_step s c H) as K.
  destruct (client_step search typer key_name system sent focus disk s c) as [ok c1]. destruct ok; [apply IH|]; exact K.
Qed.
Lemma Q_main name l : Q (client_main search typer key_name system sent focus disk name l).
Proof.
  unfold client_main, start_client.
  assert (K : Q (snd (connect search sent focus (snd (load_config disk name new_client))))).
  { apply Q_connect, Q_load. split; [|reflexivity]. intros p e q info H. destruct p; discriminate H. }
  destruct (connect search sent focus (snd (load_config disk name new_client))) as [ok c]. destruct ok; [apply Q_run|]; exact K.
Qed.
End Info.
