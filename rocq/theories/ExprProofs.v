(** Parsing an expression yields what it stands for. *)
From Coq Require Import String Ascii List Arith NArith ZArith Bool Lia.
From Verif Require Import Base Key Text TextSpec TextProofs Match ParseSeq ParseProofs MacroSpec MacroTokens
  MacroProofs MacroCalls ExprSpec.
Import ListNotations.
Local Open Scope N_scope.

(** * Texts *)

Lemma skip_spaces : forall s x, spaces s -> skip_space (s ++ x) = skip_space x.
Proof.
  intros s x H. induction H as [|c s Hc _ IH]; [reflexivity|]. cbn [app skip_space]. now rewrite Hc.
Qed.
Definition visible (c : ascii) : Prop := is_space c = false /\ is_comment_char c = false.
Lemma skip_visible : forall c r, visible c -> skip_space (c :: r) = c :: r.
Proof. intros c r [A B]. cbn [skip_space]. now rewrite A, B. Qed.
Lemma skip_to : forall s c r, spaces s -> visible c -> skip_space (s ++ c :: r) = c :: r.
Proof. intros s c r H V. rewrite skip_spaces by exact H. now apply skip_visible. Qed.

Lemma ident_plain : forall c, is_ident_char c = true ->
  visible c /\ Ascii.eqb c "!" = false /\ is_quote c = false /\ Ascii.eqb c "$" = false /\
  Ascii.eqb c "^" = false /\ Ascii.eqb c "?" = false /\ Ascii.eqb c "(" = false /\
  Ascii.eqb c ")" = false /\ Ascii.eqb c "{" = false /\ Ascii.eqb c "}" = false.
Proof.
  intros [[] [] [] [] [] [] [] []]; vm_compute; intros H; try discriminate H; repeat split.
Qed.
Lemma digit_ident : forall c, is_digit c = true -> is_ident_char c = true.
Proof. intros c H. unfold is_ident_char, is_alnum. rewrite H. now rewrite orb_true_r. Qed.

Lemma digits_split : forall n, Forall (fun c => is_ident_char c = true) n ->
  exists d m, n = d ++ m /\ Forall (fun c => is_digit c = true) d /\
              match m with c :: _ => is_digit c = false | [] => True end.
Proof.
  induction n as [|c n IH]; intros F; [now exists [], []|]. inversion_clear F as [|? ? Hc Fn].
  destruct (IH Fn) as [d [m [-> [D M]]]]. destruct (is_digit c) eqn:E.
  - exists (c :: d), m. repeat split; [now constructor|exact M].
  - exists [], (c :: d ++ m). now repeat split.
Qed.

Lemma apart_not_digit : forall t, apart t -> match t with c :: _ => is_digit c = false | [] => True end.
Proof.
  intros [|c t] H; [exact I|]. cbn in *. destruct (is_digit c) eqn:E; [|reflexivity].
  apply digit_ident in E. congruence.
Qed.

Section Names.
Variable gk : text -> key.

Lemma name_no_timeout : forall n k t, name_of gk n k -> apart t -> try_read_timeout (n ++ t) = TNo.
Proof.
  intros n k t [N [F [_ [_ D]]]] A. destruct (digits_split n F) as [d [m [E [Fd M]]]].
  unfold try_read_timeout. destruct d as [|c d].
  - cbn [app] in E. subst m. destruct n as [|c n]; [easy|]. cbn [app try_read_number].
    now rewrite M.
  - destruct (D (c :: d) m E) as [B X]; [split; [discriminate|exact Fd]|exact M|].
    rewrite E, <- app_assoc, try_read_digits; [|discriminate|exact Fd| |exact B].
    + assert (S0 : skip (T "ms") (m ++ t) = None).
      { destruct (skip (T "ms") (m ++ t)) as [q|] eqn:G; [|reflexivity]. exfalso.
        apply skip_app in G. change (T "ms" ++ q) with ("m"%char :: "s"%char :: q) in G.
        destruct m as [|a [|b m]]; cbn [app] in G.
        - rewrite G in A. discriminate A.
        - injection G as _ G. rewrite G in A. discriminate A.
        - injection G as -> -> _. now apply (X m). }
      now rewrite S0.
    + destruct m as [|a m]; [now apply apart_not_digit|exact M].
Qed.

Lemma name_read : forall n k t, name_of gk n k -> apart t -> read_key gk (n ++ t) = POk (k, t).
Proof.
  intros n k t [N [F [G [K _]]]] A. unfold read_key. rewrite read_ident_word; [|exact F|exact A].
  destruct n as [|c n]; [easy|]. rewrite G. now destruct k.
Qed.
End Names.

Lemma command_read : forall c, balanced c -> forall level r,
  read_command (S level) (c ++ r) =
  match read_command (S level) r with Some (t, q) => Some (c ++ t, q) | None => None end.
Proof.
  induction 1 as [|c r N1 N2 _ IH|a r _ IHa _ IHr]; intros level q.
  - cbn [app]. now destruct (read_command (S level) q) as [[t x]|].
  - cbn [app read_command].
    destruct (N.eqb_spec (code c) 40) as [E|_].
    { elim N1. unfold code in E. rewrite <- (ascii_N_embedding c), E. reflexivity. }
    destruct (N.eqb_spec (code c) 41) as [E|_].
    { elim N2. unfold code in E. rewrite <- (ascii_N_embedding c), E. reflexivity. }
    rewrite IH. destruct (read_command (S level) q) as [[t x]|]; reflexivity.
  - cbn [app]. rewrite <- app_assoc. cbn [app].
    assert (E : forall x, read_command (S level) ("("%char :: x) =
      match read_command (S (S level)) x with Some (t, y) => Some ("("%char :: t, y) | None => None end)
      by reflexivity.
    rewrite E, IHa.
    assert (E' : forall x, read_command (S (S level)) (")"%char :: x) =
      match read_command (S level) x with Some (t, y) => Some (")"%char :: t, y) | None => None end)
      by reflexivity.
    rewrite E', IHr. destruct (read_command (S level) q) as [[t x]|]; [|reflexivity].
    now rewrite <- app_assoc.
Qed.

(** * Steps of the parser *)

Section Parse.
Variable inp : bool.
Variable gk : text -> key.
Variable ty : text -> list stroke.
Variable command : nat -> key.
Notation step := (parse_step inp gk ty (Some command)).
Notation loop := (parse_loop inp gk ty (Some command)).

Definition runs (it : text) (p : pstate) (it' : text) (p' : pstate) : Prop :=
  forall f, (length it < f)%nat -> exists f', (length it' < f')%nat /\ loop f it p = loop f' it' p'.
Lemma runs_refl : forall it p, runs it p it p.
Proof. intros it p f L. now exists f. Qed.
Lemma runs_trans : forall a p b q c r, runs a p b q -> runs b q c r -> runs a p c r.
Proof.
  intros a p b q c r H K f L. destruct (H f L) as [g [M ->]]. apply (K g M).
Qed.
Lemma runs_step : forall it p it' p', step (skip_space it) p = POk (Continue it' p') -> runs it p it' p'.
Proof.
  intros it p it' p' H [|f] L; [lia|]. exists f. cbn [parse_loop]. rewrite H. split; [|reflexivity].
  pose proof (step_outcome inp gk ty (Some command) (skip_space it) p) as O. rewrite H in O.
  destruct O as [O _]. apply later_length in O.
  pose proof (suffix_length _ _ (skip_space_suffix it)). lia.
Qed.

Definition free (prev mods : list key) : Prop := inp = false -> Forall (fun k => ~ In k mods) prev.
Definition stroke_of (prev : list key) : sequence := all prev Down ++ all prev (released inp).

Lemma remove_absent : forall b l, Forall (fun k => ~ In k l) b ->
  fold_left (fun l k => remove_key k l) b l = l.
Proof.
  intros b l H. induction H as [|k b N _ IH]; [reflexivity|]. cbn [fold_left].
  assert (E : remove_key k l = l).
  { clear - N. induction l as [|x l IH]; [reflexivity|]. cbn. 
    destruct (N.eqb_spec x k) as [E|E]; [elim N; now left|].
    cbn [negb]. f_equal. apply IH. intros F. apply N. now right. }
  now rewrite E.
Qed.

Lemma flush_true : forall mods prev bf sq cm nm rl tg md hm, free prev mods ->
  flush_key_buffer inp true (PS mods prev bf sq cm nm rl tg md hm) =
  PS mods [] bf (sq ++ stroke_of prev) cm nm rl tg md hm.
Proof.
  intros mods prev bf sq cm nm rl tg md hm H. unfold flush_key_buffer, stroke_of, released, all, free in *.
  cbn. destruct inp; cbn; rewrite app_assoc; [reflexivity|].
  rewrite remove_absent by now apply H. reflexivity.
Qed.
Lemma flush_false : forall mods prev bf sq cm nm rl tg md hm,
  flush_key_buffer inp false (PS mods prev bf sq cm nm rl tg md hm) =
  PS (mods ++ prev) [] bf (sq ++ all prev Down) cm nm rl tg md hm.
Proof. reflexivity. Qed.

Lemma step_name : forall n k t mods prev bf sq cm nm rl md hm, free prev mods ->
  name_of gk n k -> apart t ->
  step (n ++ t) (PS mods prev bf sq cm nm rl false md hm) =
  POk (Continue t (PS mods [k] bf (sq ++ stroke_of prev) cm nm rl false md hm)).
Proof.
  intros n k t mods prev bf sq cm nm rl md hm Fr Nk A.
  pose proof (name_no_timeout gk n k t Nk A) as X. pose proof (name_read gk n k t Nk A) as Y.
  destruct Nk as [N [F _]]. destruct n as [|c n]; [easy|]. inversion_clear F as [|? ? Hc _].
  destruct (ident_plain c Hc) as [[_ V] [E1 [E2 [E3 [E4 [E5 [E6 [E7 [E8 E9]]]]]]]]].
  unfold parse_step. cbn [app] in *. rewrite E1, E2, E3, E4, E5, E6, E7, E8, E9, V, X. cbn [p_together].
  rewrite flush_true by exact Fr. rewrite Y. reflexivity.
Qed.
Lemma step_name_together : forall n k t mods prev bf sq cm nm rl md hm,
  name_of gk n k -> apart t ->
  step (n ++ t) (PS mods prev bf sq cm nm rl true md hm) =
  POk (Continue t (PS mods (prev ++ [k]) bf sq cm nm rl true md hm)).
Proof.
  intros n k t mods prev bf sq cm nm rl md hm Nk A.
  pose proof (name_no_timeout gk n k t Nk A) as X. pose proof (name_read gk n k t Nk A) as Y.
  destruct Nk as [N [F _]]. destruct n as [|c n]; [easy|]. inversion_clear F as [|? ? Hc _].
  destruct (ident_plain c Hc) as [[_ V] [E1 [E2 [E3 [E4 [E5 [E6 [E7 [E8 E9]]]]]]]]].
  unfold parse_step. cbn [app] in *. rewrite E1, E2, E3, E4, E5, E6, E7, E8, E9, V, X. cbn [p_together].
  rewrite Y. reflexivity.
Qed.

Lemma name_visible : forall n k r, name_of gk n k -> exists c n', n ++ r = c :: n' /\ visible c.
Proof.
  intros n k r [N [F _]]. destruct n as [|c n]; [easy|]. inversion_clear F as [|? ? Hc _].
  exists c, (n ++ r). split; [reflexivity|]. now apply ident_plain.
Qed.
Lemma skip_name : forall s n k r, spaces s -> name_of gk n k -> skip_space (s ++ n ++ r) = n ++ r.
Proof.
  intros s n k r S0 Nk. destruct (name_visible n k r Nk) as [c [n' [-> V]]]. now apply skip_to.
Qed.

(** `A B` within parentheses, up to the closing one *)
Lemma runs_names : forall ks t, name_list gk ks t -> forall r mods prev bf sq cm nm rl md hm,
  exists s, spaces s /\
  runs (t ++ ")"%char :: r) (PS mods prev bf sq cm nm rl true md hm)
       (s ++ ")"%char :: r) (PS mods (prev ++ ks) bf sq cm nm rl true md hm).
Proof.
  induction 1 as [s S0|s n k ks t S0 Nk _ IH A]; intros r mods prev bf sq cm nm rl md hm.
  - exists s. split; [exact S0|]. rewrite app_nil_r. apply runs_refl.
  - destruct (IH r mods (prev ++ [k]) bf sq cm nm rl md hm) as [s' [S' R]]. exists s'.
    split; [exact S'|]. rewrite <- app_assoc in R. eapply runs_trans; [|exact R]. apply runs_step.
    rewrite <- !app_assoc, (skip_name s n k) by assumption. apply step_name_together; [exact Nk|].
    now destruct t.
Qed.

Definition marks (g : bool) (ks : list key) : sequence := if inp && g then all ks DownAsync else [].

Lemma runs_keys : forall g ks x, keys_text gk g ks x -> forall s r mods prev bf sq cm nm rl md hm,
  spaces s -> (g = false -> apart r) -> free prev mods ->
  runs (s ++ x ++ r) (PS mods prev bf sq cm nm rl false md hm)
       r (PS mods ks bf (sq ++ stroke_of prev ++ marks g ks) cm nm rl false md hm).
Proof.
  intros g ks x [n k Nk|ks' t N L] s r mods prev bf sq cm nm rl md hm S0 A Fr.
  - apply runs_step. rewrite (skip_name s n k) by assumption.
    rewrite (step_name n k) by (try assumption; now apply A).
    unfold marks. rewrite andb_false_r, app_nil_r. reflexivity.
  - assert (O : forall x p, p_together p = false -> step ("("%char :: x) p =
        POk (Continue x (p_set_together true (flush_key_buffer inp true p)))).
    { intros y p H. unfold parse_step. cbn. now rewrite H. }
    eapply runs_trans.
    { apply runs_step. cbn [app]. rewrite skip_to; [|exact S0|now split].
      rewrite O by reflexivity. rewrite flush_true by exact Fr. cbn [p_set_together]. reflexivity. }
    cbn [p_pressed p_buffer p_before p_seq p_cmds p_nmm p_onrel p_modified p_hasmod].
    rewrite <- app_assoc. cbn [app].
    destruct (runs_names ks' t L r mods [] bf (sq ++ stroke_of prev) cm nm rl md hm) as [s' [S' R]].
    eapply runs_trans; [exact R|]. apply runs_step. rewrite skip_to; [|exact S'|now split].
    assert (C : forall x p, p_together p = true -> step (")"%char :: x) p =
        POk (Continue x (p_set_together false
          (if inp then p_set_seq (p_seq p ++ map (fun k => ev0 k DownAsync) (p_buffer p)) p else p)))).
    { intros y p H. unfold parse_step. cbn. now rewrite H. }
    rewrite C by reflexivity. unfold marks. cbn [app].
    destruct inp; cbn; unfold p_set_together; cbn; rewrite <- ?app_assoc, ?app_nil_r; reflexivity.
Qed.

(** ** The parts of the meaning *)

Lemma is_pressed_last : forall l k, is_pressed l k =
  match last_state k l with None | Some Up => false | _ => true end.
Proof.
  intros l k. unfold is_pressed, last_state.
  assert (K : forall l o, fold_left (fun o e => if ek e =? k then Some (es e) else o) l o =
    match rfind_index (fun e => ek e =? k) l with
    | Some i => match nth_error l i with Some e => Some (es e) | None => o end
    | None => o end).
  { clear l. induction l as [|e l IH]; intros o; [reflexivity|]. cbn [fold_left rfind_index].
    rewrite IH. destruct (rfind_index (fun e0 => ek e0 =? k) l) as [i|] eqn:R.
    - cbn [nth_error]. destruct (nth_error l i) eqn:G; [reflexivity|].
      exfalso. apply nth_error_None in G. clear - R G. revert i R G.
      induction l as [|x l IH]; intros i R G; [discriminate|]. cbn [rfind_index] in R.
      destruct (rfind_index (fun e0 => ek e0 =? k) l) as [j|]; [injection R as <-; apply (IH j eq_refl); cbn in G; lia|].
      destruct (ek x =? k); [|discriminate]. injection R as <-. cbn in G. lia.
    - destruct (ek e =? k); reflexivity. }
  rewrite K. destruct (rfind_index (fun e => ek e =? k) l) as [i|]; [|reflexivity].
  destruct (nth_error l i) as [e|]; [|reflexivity]. destruct (es e); reflexivity.
Qed.

Lemma async_last : forall l k, ends_with_async_up l k = event_eqb (last l (Ev k_none Up 0)) (Ev k UpAsync 0).
Proof.
  intros l k. unfold ends_with_async_up. destruct l as [|e l _] using rev_ind.
  - cbn. unfold event_eqb. cbn. now rewrite andb_false_r.
  - rewrite last_last. unfold back. rewrite rev_app_distr. reflexivity.
Qed.

Lemma not_key_parsed : forall k mods prev bf sq cm nm rl md hm, free prev mods ->
  ~ In k mods -> (md = 0%nat <-> mods = []) ->
  (if inp then (mods <> [] -> In k prev) /\ last_state k (sq ++ stroke_of prev) <> Some Not else prev = []) ->
  parse_not_key inp k (PS mods prev bf sq cm nm rl false md hm) =
  POk (PS mods [] bf (not_key inp k (sq ++ stroke_of prev)) cm nm rl false md hm).
Proof.
  intros k mods prev bf sq cm nm rl md hm Fr Nk Md H. unfold parse_not_key.
  assert (Rm : forall s, remove_from_pressed k (PS mods [] bf s cm nm rl false md hm) =
                 (PS mods [] bf s cm nm rl false md hm, false)).
  { intros s. unfold remove_from_pressed. cbn [p_pressed].
    assert (E1 : remove_key k mods = mods).
    { change (remove_key k mods) with (fold_left (fun l k => remove_key k l) [k] mods).
      apply remove_absent. now constructor. }
    assert (E2 : mem_key k mods = false).
    { unfold mem_key. destruct (existsb (N.eqb k) mods) eqn:E; [|reflexivity].
      apply existsb_exists in E. destruct E as [x [I0 E]]. apply N.eqb_eq in E. now subst x. }
    now rewrite E1, E2. }
  pose proof (flush_true mods prev bf sq cm nm rl false md hm Fr) as Ft.
  pose proof (flush_false mods prev bf sq cm nm rl false md hm) as Ff.
  unfold not_key, stroke_of, released in *.
  destruct inp.
  - destruct H as [H L]. cbn [andb].
    assert (C : Nat.ltb 0 md && negb (mem_key k prev) = false).
    { destruct (Nat.ltb_spec 0 md) as [X|X]; [|reflexivity]. cbn [andb].
      assert (G : mods <> []) by (intros Z; apply Md in Z; lia). specialize (H G).
      assert (E : mem_key k prev = true).
      { unfold mem_key. apply existsb_exists. exists k. split; [exact H|apply N.eqb_refl]. }
      now rewrite E. }
    cbn [p_modified p_buffer]. rewrite C, Ft, Rm. cbn [p_seq andb]. rewrite async_last.
    set (l := sq ++ all prev Down ++ all prev UpAsync) in *.
    destruct (event_eqb (last l (Ev k_none Up 0)) (Ev k UpAsync 0)); [reflexivity|].
    rewrite is_pressed_last. unfold pressed. destruct (last_state k l) as [[]|]; try reflexivity.
    now elim L.
  - subst prev. cbn [andb]. cbn [all map app] in Ff. rewrite Ff, !app_nil_r, Rm. cbn [p_seq andb all map]. rewrite ?app_nil_r. reflexivity.
Qed.

Lemma has_press : forall l, presses l -> has_key_down l = true.
Proof.
  intros l [e [I0 [D K]]]. unfold has_key_down. apply existsb_exists. exists e. split; [exact I0|].
  rewrite D. cbn. apply negb_true_iff, N.eqb_neq. exact K.
Qed.

Lemma wait_parsed : forall neg ms mods prev bf sq cm nm rl md hm, free prev mods ->
  (md = 0%nat <-> mods = []) ->
  (if inp then presses (sq ++ stroke_of prev) else neg = false) ->
  add_timeout_event inp (duration_to_timeout (Z.of_N ms)) neg (Nat.ltb 0 md) (PS mods prev bf sq cm nm rl false md hm) =
  POk (PS mods [] bf (wait (wait_state inp neg match mods with [] => false | _ => true end) ms
                       (sq ++ stroke_of prev)) cm nm rl false md hm).
Proof.
  intros neg ms mods prev bf sq cm nm rl md hm Fr Md H. unfold add_timeout_event.
  rewrite flush_true by exact Fr. cbn [p_seq].
  assert (A : inp && negb (has_key_down (sq ++ stroke_of prev)) = false).
  { destruct inp; [|reflexivity]. now rewrite has_press by exact H. }
  rewrite A. assert (B : negb inp && neg = false) by (destruct inp; [reflexivity|now rewrite H]).
  rewrite B.
  assert (C : Nat.ltb 0 md = match mods with [] => false | _ => true end).
  { destruct mods as [|x mods]; [|destruct (Nat.ltb_spec 0 md) as [X|X]; [reflexivity|]].
    - destruct Md as [_ Md]. now rewrite Md by reflexivity.
    - exfalso. assert (Z : md = 0%nat) by lia. apply Md in Z. discriminate. }
  rewrite C.
  assert (W : (if negb inp then Down else if neg then if match mods with [] => false | _ => true end
               then NotTimeoutUpDown else Not else if match mods with [] => false | _ => true end then Up else Down)
              = wait_state inp neg match mods with [] => false | _ => true end).
  { unfold wait_state. now destruct inp. }
  rewrite W. set (st := wait_state _ _ _). set (l := sq ++ stroke_of prev).
  assert (V : duration_to_timeout (Z.of_N ms) = N.min 4095 ms).
  { unfold duration_to_timeout. lia. }
  unfold wait. destruct l as [|e l' _] using rev_ind.
  - cbn. unfold add_event. cbn. now rewrite V.
  - unfold back. rewrite rev_app_distr. cbn [rev app nth_error]. destruct e as [k s v]. cbn [ek es ev].
    destruct ((k =? k_timeout) && kstate_eqb s st).
    + unfold pop_back. rewrite removelast_last, rev_involutive. unfold sum_timeouts. rewrite V.
      replace (N.min (v + N.min 4095 ms) 4095) with (N.min 4095 (v + ms)) by lia. reflexivity.
    + unfold add_event. cbn. now rewrite V.
Qed.

Lemma ending_spec : forall f l, exists w, l = w ++ ending f l /\ forallb f (ending f l) = true /\
  (forall a e, w = a ++ [e] -> f e = false).
Proof.
  intros f. induction l as [|e l [w [E [A B]]]].
  - exists []. split; [reflexivity|]. split; [reflexivity|]. intros [|? ?] ? H; discriminate.
  - cbn [ending]. destruct (forallb f (e :: l)) eqn:F.
    + exists []. split; [reflexivity|]. split; [exact F|]. intros [|? ?] ? H; discriminate.
    + exists (e :: w). split; [cbn; now rewrite <- E|]. split; [exact A|].
      intros a x H. destruct a as [|y a].
      * injection H as <- ->. cbn [forallb] in F. cbn [app] in E. rewrite <- E in A.
        rewrite A in F. now rewrite andb_true_r in F.
      * injection H as _ H. now apply (B a x).
Qed.
Lemma without_spec : forall f l, l = without_ending f l ++ ending f l /\
  forallb f (ending f l) = true /\ (forall a e, without_ending f l = a ++ [e] -> f e = false).
Proof.
  intros f l. destruct (ending_spec f l) as [w [E [A B]]].
  assert (W : without_ending f l = w).
  { unfold without_ending. rewrite E at 1 3. rewrite app_length.
    replace (length w + length (ending f l) - length (ending f l))%nat with (length w) by lia.
    rewrite firstn_app, Nat.sub_diag, firstn_all. cbn. apply app_nil_r. }
  rewrite W. now repeat split.
Qed.

Lemma in_time_parsed : forall l,
  l ++ map (fun k => ev0 k Up) (scan_not_timeout (rev l) []) = in_time true l.
Proof.
  intros l. destruct (without_spec (is_state UpAsync) l) as [E [A B]]. unfold in_time.
  set (u := ending (is_state UpAsync) l) in *. set (w := without_ending (is_state UpAsync) l) in *.
  assert (K : forall u acc r, forallb (is_state UpAsync) u = true ->
              scan_not_timeout (rev u ++ r) acc = scan_not_timeout r (map ek u ++ acc)).
  { clear. induction u as [|e u IH] using rev_ind; intros acc r H; [reflexivity|].
    rewrite forallb_app in H. apply andb_true_iff in H. destruct H as [H1 H2].
    cbn in H2. rewrite andb_true_r in H2. unfold is_state in H2.
    rewrite rev_app_distr. cbn [rev app scan_not_timeout].
    destruct (es e) eqn:S0; try discriminate. cbn [is_not_timeout kstate_eqb]. rewrite andb_false_r.
    rewrite IH by exact H1. rewrite map_app, <- app_assoc. reflexivity. }
  rewrite E at 2. rewrite rev_app_distr, K by exact A. rewrite app_nil_r.
  destruct w as [|e w' _] using rev_ind; [cbn; now rewrite app_nil_r|].
  rewrite rev_app_distr. cbn [rev app scan_not_timeout]. destruct e as [k s v]. cbn [ek es].
  destruct ((k =? k_timeout) && is_not_timeout s).
  - now rewrite map_map.
  - specialize (B w' (Ev k s v) eq_refl). unfold is_state in B. cbn [es] in B. rewrite B. cbn. apply app_nil_r.
Qed.

(** ** Whole expressions *)

Definition typing (held : bool) (s : text) : sequence :=
  if inp then string_input held (ty s) else string_output held (ty s).
Definition types_modifiers (s : text) : bool := strokes_have_modifier (ty s).
Definition within (mods : list key) : bool := match mods with [] => false | _ => true end.

Lemma space_apart : forall s c r, spaces s -> is_ident_char c = false -> apart (s ++ c :: r).
Proof.
  intros s c r H C. destruct H as [|x s Hx _]; [exact C|]. cbn.
  destruct (is_ident_char x) eqn:E; [|reflexivity]. apply ident_no_space in E. destruct E as [E _]. congruence.
Qed.
Lemma apart_app : forall t tail, apart t -> apart tail -> apart (t ++ tail).
Proof. intros [|c t] tail A B; [exact B|exact A]. Qed.

Lemma step_not : forall n k t p, name_of gk n k -> apart t -> p_together p = false ->
  step ("!"%char :: n ++ t) p = lift t (parse_not_key inp k p).
Proof.
  intros n k t p Nk A T0. unfold parse_step. cbn [Ascii.eqb Bool.eqb].
  rewrite (name_no_timeout gk n k t Nk A), (name_read gk n k t Nk A), T0. reflexivity.
Qed.

Lemma duration_read : forall d ms t, digit_text d -> number d = Z.of_N ms -> (Z.of_N ms <= int_max)%Z ->
  try_read_timeout (d ++ "m"%char :: "s"%char :: t) = TYes (duration_to_timeout (Z.of_N ms)) t.
Proof.
  intros d ms t [N F] V B. unfold try_read_timeout.
  rewrite try_read_digits; [|exact N|exact F|reflexivity|rewrite V; exact B]. rewrite V. reflexivity.
Qed.
Lemma step_wait : forall (neg : bool) d ms t p, digit_text d -> number d = Z.of_N ms ->
  (Z.of_N ms <= int_max)%Z -> p_together p = false -> (p_nmm p = true -> neg = true) ->
  step ((if neg then ["!"%char] else []) ++ d ++ "m"%char :: "s"%char :: t) p =
  lift t (add_timeout_event inp (duration_to_timeout (Z.of_N ms)) neg (Nat.ltb 0 (p_modified p)) p).
Proof.
  intros neg d ms t p D V B T0 Nm. pose proof (duration_read d ms t D V B) as R. destruct neg.
  - cbn [app]. unfold parse_step. cbn [Ascii.eqb Bool.eqb]. rewrite R, T0. reflexivity.
  - destruct D as [N F]. destruct d as [|c d]; [easy|]. inversion_clear F as [|? ? Hc _].
    apply digit_ident in Hc. cbn [app] in *.
    destruct (ident_plain c Hc) as [[_ Vc] [E1 [E2 [E3 [E4 [E5 [E6 [E7 [E8 E9]]]]]]]]].
    unfold parse_step. rewrite E1, E2, E3, E4, E5, E6, E7, E8, E9, Vc, R, T0.
    destruct (p_nmm p); [now specialize (Nm eq_refl)|reflexivity].
Qed.

Lemma quote_plain : forall c, is_quote c = true ->
  visible c /\ Ascii.eqb c "!" = false.
Proof. intros [[] [] [] [] [] [] [] []]; vm_compute; intros H; try discriminate H; repeat split. Qed.
Lemma step_string : forall q x t mods prev bf sq cm nm rl md hm, free prev mods ->
  is_quote q = true -> ~ In q x -> (md = 0%nat <-> mods = []) ->
  step (q :: x ++ q :: t) (PS mods prev bf sq cm nm rl false md hm) =
  POk (Continue t (PS mods [] bf ((sq ++ stroke_of prev) ++ typing (within mods) x) cm nm rl false md
                      (hm || types_modifiers x))).
Proof.
  intros q x t mods prev bf sq cm nm rl md hm Fr Q N Md. unfold parse_step.
  destruct (quote_plain q Q) as [_ ->]. rewrite Q. unfold parse_string. cbn [p_together].
  rewrite skip_until_char by exact N. rewrite flush_true by exact Fr. cbn [p_modified].
  assert (B : before (x ++ q :: t) t = x ++ [q]).
  { change (q :: t) with ([q] ++ t). rewrite app_assoc. apply before_app. }
  rewrite B, removelast_last.
  assert (C : Nat.ltb 0 md = within mods).
  { unfold within. destruct mods as [|y mods]; [|destruct (Nat.ltb_spec 0 md) as [X|X]; [reflexivity|]].
    - destruct Md as [_ Md]. now rewrite Md by reflexivity.
    - exfalso. assert (Z : md = 0%nat) by lia. apply Md in Z. discriminate. }
  rewrite C. reflexivity.
Qed.

Lemma step_command : forall c t mods prev bf sq cm nm rl hm, free prev mods -> inp = false -> balanced c ->
  step ("$"%char :: "("%char :: c ++ ")"%char :: t) (PS mods prev bf sq cm nm rl false 0 hm) =
  POk (Continue t (PS mods [] bf ((sq ++ stroke_of prev) ++ [Ev (command (length cm)) Down 0]) (cm ++ [c]) nm rl false 0 hm)).
Proof.
  intros c t mods prev bf sq cm nm rl hm Fr Inp B. unfold parse_step. cbn [Ascii.eqb Bool.eqb is_quote].
  change (is_quote "$") with false. unfold parse_command. cbn [p_together p_modified].
  rewrite Inp. change (skip (T "(") ("("%char :: c ++ ")"%char :: t)) with (Some (c ++ ")"%char :: t)).
  cbn [orb Nat.ltb Nat.leb]. rewrite command_read by exact B.
  change (read_command 1 (")"%char :: t)) with (Some (@nil ascii, t)). cbn iota. rewrite app_nil_r.
  rewrite <- Inp. rewrite flush_true by exact Fr. reflexivity.
Qed.

Lemma step_release : forall t mods prev bf sq cm nm hm, free prev mods -> inp = false ->
  step ("^"%char :: t) (PS mods prev bf sq cm nm false false 0 hm) =
  POk (Continue t (PS mods [] bf ((sq ++ stroke_of prev) ++ [Ev k_none OutputOnRelease 0]) cm nm true false 0 hm)).
Proof.
  intros t mods prev bf sq cm nm hm Fr Inp. unfold parse_step. cbn [Ascii.eqb Bool.eqb].
  change (is_quote "^") with false. cbn [p_onrel p_together p_modified]. rewrite Inp at 1.
  cbn [orb Nat.ltb Nat.leb]. rewrite flush_true by exact Fr. reflexivity.
Qed.

Lemma step_open : forall t mods ks bf sq cm nm rl md hm, ks <> [] ->
  step ("{"%char :: t) (PS mods ks bf sq cm nm rl false md hm) =
  POk (Continue t (PS (mods ++ ks) [] (length mods :: bf) (sq ++ all ks Down) cm nm rl false (S md) true)).
Proof.
  intros t mods ks bf sq cm nm rl md hm N. unfold parse_step. cbn [Ascii.eqb Bool.eqb].
  change (is_quote "{") with false. cbn [p_together]. unfold p_set_before.
  cbn [p_pressed p_buffer p_seq p_cmds p_nmm p_onrel p_together p_modified p_hasmod p_before].
  rewrite flush_false. cbn [p_pressed].
  destruct (mods ++ ks) as [|k l] eqn:E; [apply app_eq_nil in E; now destruct E|]. reflexivity.
Qed.

Lemma step_close : forall t mods ks prev bf sq cm nm rl md hm, free prev (mods ++ ks) ->
  step ("}"%char :: t) (PS (mods ++ ks) prev (length mods :: bf) sq cm nm rl false (S md) hm) =
  POk (Continue t (PS mods [] bf (in_time inp ((sq ++ stroke_of prev) ++ all (rev ks) (released inp)))
                      cm nm rl false md hm)).
Proof.
  intros t mods ks prev bf sq cm nm rl md hm Fr. unfold parse_step. cbn [Ascii.eqb Bool.eqb].
  change (is_quote "}") with false. cbn [p_modified p_before]. rewrite flush_true by exact Fr.
  unfold release_pressed_keys. cbn [p_pressed p_seq].
  rewrite skipn_app, skipn_all, Nat.sub_diag. cbn [app skipn].
  rewrite firstn_app, firstn_all, Nat.sub_diag. cbn [firstn]. rewrite app_nil_r.
  unfold released. destruct inp; [|reflexivity].
  unfold sync_after_not_timeout. cbn [p_seq p_set_seq p_set_modified p_set_before p_set_pressed].
  rewrite in_time_parsed. reflexivity.
Qed.

Lemma written_runs : forall e t, written gk e t -> forall tail mods prev bf sq cm nm rl hm,
  (nm = true -> inp = true) -> apart tail -> free prev mods -> (length bf = 0%nat <-> mods = []) ->
  fine inp typing command nm mods prev rl (length cm) e (sq ++ stroke_of prev) ->
  exists s prev' sq' rl', spaces s /\ free prev' mods /\ (mods <> [] -> rl' = rl /\ commands_of e = []) /\
    runs (t ++ tail) (PS mods prev bf sq cm nm rl false (length bf) hm)
         (s ++ tail) (PS mods prev' bf sq' (cm ++ commands_of e) nm rl' false (length bf)
                         (hm || holds types_modifiers e)) /\
    sq' ++ stroke_of prev' = meaning inp typing command (within mods) (length cm) e (sq ++ stroke_of prev).
Proof.
  induction 1 as [s S0|s g ks x e t S0 K A _ IH|s g ks x s' b tb e t S0 K S1 _ IHb _ IHe
                 |s n k e t S0 Nk A _ IH|s neg d ms e t S0 D V B _ IH|s q x e t S0 Q N _ IH
                 |s c e t S0 B _ IH|s e t S0 _ IH];
    intros tail mods prev bf sq cm nm rl hm Hn At Fr Md Fi; cbn [fine meaning commands_of holds] in *.
  - exists s, prev, sq, rl. split; [exact S0|]. split; [exact Fr|]. split; [easy|].
    rewrite app_nil_r, orb_false_r. split; [apply runs_refl|reflexivity].
  - destruct Fi as [Fk Fi].
    assert (E : (sq ++ stroke_of prev) ++ pressing inp g ks ++ all ks (released inp)
                = (sq ++ stroke_of prev ++ marks g ks) ++ stroke_of ks).
    { unfold pressing, stroke_of, marks. now rewrite <- ?app_assoc. }
    rewrite E in *.
    destruct (IH tail mods ks bf (sq ++ stroke_of prev ++ marks g ks) cm nm rl hm Hn At Fk Md Fi)
      as [s' [prev' [sq' [rl' [S' [F' [C' [R' M']]]]]]]].
    exists s', prev', sq', rl'. repeat (split; [assumption|]). split; [|exact M'].
    eapply runs_trans; [|exact R']. rewrite <- ?app_assoc. eapply runs_keys; [exact K|exact S0| |exact Fr].
    intros G. apply apart_app; [now apply A|exact At].
  - destruct Fi as [Fb Fe].
    assert (Nks : ks <> []) by (destruct K; [discriminate|assumption]).
    assert (Nm : mods ++ ks <> []).
    { intros E. apply app_eq_nil in E. now destruct E. }
    assert (E : (sq ++ stroke_of prev) ++ pressing inp g ks
                = ((sq ++ stroke_of prev ++ marks g ks) ++ all ks Down) ++ stroke_of []).
    { unfold pressing, marks. change (stroke_of []) with (@nil event).
      rewrite app_nil_r. now rewrite <- ?app_assoc. }
    rewrite E in *.
    destruct (IHb ("}"%char :: t ++ tail) (mods ++ ks) [] (length mods :: bf)
                ((sq ++ stroke_of prev ++ marks g ks) ++ all ks Down) cm nm rl true)
      as [s2 [prev2 [sq2 [rl2 [S2 [F2 [C2 [R2 M2]]]]]]]]; [exact Hn|reflexivity| | |exact Fb|].
    { intros _. constructor. }
    { cbn. split; [discriminate|now intros]. }
    destruct (C2 Nm) as [-> Cb]. rewrite Cb, app_nil_r in R2. cbn [orb] in R2.
    assert (W : within (mods ++ ks) = true) by (unfold within; now destruct (mods ++ ks)).
    rewrite W in M2. rewrite <- M2 in *.
    rewrite <- (app_nil_r (in_time inp _)) in Fe. change (@nil event) with (stroke_of []) in Fe.
    destruct (IHe tail mods [] bf (in_time inp ((sq2 ++ stroke_of prev2) ++ all (rev ks) (released inp)))
                cm nm rl true) as [s3 [prev3 [sq3 [rl3 [S3 [F3 [C3 [R3 M3]]]]]]]]; [exact Hn|exact At| |exact Md|exact Fe|].
    { intros _. constructor. }
    exists s3, prev3, sq3, rl3. repeat (split; [assumption|]).
    change (stroke_of []) with (@nil event) in M3. rewrite app_nil_r in M3.
    split; [|exact M3]. rewrite orb_true_r. cbn [orb] in R3.
    rewrite <- ?app_assoc. cbn [app]. rewrite <- ?app_assoc. cbn [app].
    eapply runs_trans.
    { eapply runs_keys; [exact K|exact S0| |exact Fr]. intros _. now apply space_apart. }
    eapply runs_trans.
    { apply runs_step. rewrite skip_to; [|exact S1|now split]. apply step_open. exact Nks. }
    eapply runs_trans; [exact R2|]. eapply runs_trans; [|exact R3].
    apply runs_step. rewrite skip_to; [|exact S2|now split]. now apply step_close.
  - destruct Fi as [Fk [Fp Fi]].
    rewrite <- (app_nil_r (not_key inp k _)) in Fi. change (@nil event) with (stroke_of []) in Fi.
    destruct (IH tail mods [] bf (not_key inp k (sq ++ stroke_of prev)) cm nm rl hm) as
      [s3 [prev3 [sq3 [rl3 [S3 [F3 [C3 [R3 M3]]]]]]]]; [exact Hn|exact At| |exact Md|exact Fi|].
    { intros _. constructor. }
    exists s3, prev3, sq3, rl3. repeat (split; [assumption|]).
    change (stroke_of []) with (@nil event) in M3. rewrite app_nil_r in M3.
    split; [|exact M3]. eapply runs_trans; [|exact R3]. apply runs_step.
    rewrite <- ?app_assoc. cbn [app]. rewrite <- ?app_assoc. rewrite skip_to; [|exact S0|now split].
    rewrite (step_not n k) by (try assumption; try reflexivity; now apply apart_app).
    rewrite not_key_parsed; [reflexivity|exact Fr|exact Fk|exact Md|].
    destruct inp; [|exact Fp]. destruct Fp as [P1 P2]. split; [|exact P2]. intros X. apply P1. now destruct mods.
  - destruct Fi as [Fw Fi].
    rewrite <- (app_nil_r (wait _ ms _)) in Fi. change (@nil event) with (stroke_of []) in Fi.
    destruct (IH tail mods [] bf (wait (wait_state inp neg (within mods)) ms (sq ++ stroke_of prev)) cm nm rl hm) as
      [s3 [prev3 [sq3 [rl3 [S3 [F3 [C3 [R3 M3]]]]]]]]; [exact Hn|exact At| |exact Md|exact Fi|].
    { intros _. constructor. }
    exists s3, prev3, sq3, rl3. repeat (split; [assumption|]).
    change (stroke_of []) with (@nil event) in M3. rewrite app_nil_r in M3.
    split; [|exact M3]. eapply runs_trans; [|exact R3]. apply runs_step.
    assert (Sk : skip_space ((s ++ (if neg then ["!"%char] else []) ++ d ++ "m"%char :: "s"%char :: t) ++ tail)
                 = (if neg then ["!"%char] else []) ++ d ++ "m"%char :: "s"%char :: t ++ tail).
    { rewrite <- ?app_assoc. cbn [app]. rewrite skip_spaces by exact S0. destruct neg; [reflexivity|].
      cbn [app]. destruct D as [Nd Fd]. destruct d as [|c d]; [easy|]. inversion_clear Fd as [|? ? Hc _].
      apply digit_ident, ident_plain in Hc. destruct Hc as [Vc _]. cbn [app]. now apply skip_visible. }
    rewrite Sk. rewrite (step_wait neg d ms); [|exact D|exact V|exact B|reflexivity|].
    + rewrite wait_parsed; [reflexivity|exact Fr|exact Md|]. destruct inp; [now destruct Fw|exact Fw].
    + cbn. intros X. pose proof (Hn X) as Y. rewrite Y in Fw. now apply Fw.
  - rewrite <- (app_nil_r (_ ++ typing _ x)) in Fi. change (@nil event) with (stroke_of []) in Fi.
    destruct (IH tail mods [] bf ((sq ++ stroke_of prev) ++ typing (within mods) x) cm nm rl
                (hm || types_modifiers x)) as
      [s3 [prev3 [sq3 [rl3 [S3 [F3 [C3 [R3 M3]]]]]]]]; [exact Hn|exact At| |exact Md|exact Fi|].
    { intros _. constructor. }
    exists s3, prev3, sq3, rl3. repeat (split; [assumption|]).
    change (stroke_of []) with (@nil event) in M3. rewrite app_nil_r in M3.
    split; [|exact M3]. rewrite <- orb_assoc in R3. eapply runs_trans; [|exact R3]. apply runs_step.
    assert (Tx : (s ++ q :: x ++ q :: t) ++ tail = s ++ q :: x ++ q :: t ++ tail)
      by (rewrite <- ?app_assoc; cbn [app]; now rewrite <- ?app_assoc).
    rewrite Tx, skip_to; [|exact S0|exact (proj1 (quote_plain q Q))]. now apply step_string.
  - destruct Fi as [Inp [-> Fi]]. assert (bf = []) by (destruct bf; [reflexivity|destruct Md as [_ Md]; now specialize (Md eq_refl)]).
    subst bf. rewrite <- (app_nil_r (_ ++ [_])) in Fi. change (@nil event) with (stroke_of []) in Fi.
    assert (L : S (length cm) = length (cm ++ [c])) by (rewrite app_length; cbn; lia).
    rewrite L in Fi.
    destruct (IH tail [] [] [] ((sq ++ stroke_of prev) ++ [Ev (command (length cm)) Down 0]) (cm ++ [c]) nm rl hm) as
      [s3 [prev3 [sq3 [rl3 [S3 [F3 [C3 [R3 M3]]]]]]]]; [exact Hn|exact At| |exact Md|exact Fi|].
    { intros _. constructor. }
    exists s3, prev3, sq3, rl3. split; [assumption|]. split; [assumption|]. split; [easy|].
    change (stroke_of []) with (@nil event) in M3. rewrite app_nil_r in M3. rewrite L.
    split; [|exact M3]. rewrite <- (app_assoc cm [c] (commands_of e)) in R3. eapply runs_trans; [|exact R3]. apply runs_step.
    assert (Tx : (s ++ "$"%char :: "("%char :: c ++ ")"%char :: t) ++ tail
                 = s ++ "$"%char :: "("%char :: c ++ ")"%char :: t ++ tail)
      by (rewrite <- ?app_assoc; cbn [app]; now rewrite <- ?app_assoc).
    rewrite Tx, skip_to; [|exact S0|now split]. now apply step_command.
  - destruct Fi as [Inp [-> [-> Fi]]]. assert (bf = []) by (destruct bf; [reflexivity|destruct Md as [_ Md]; now specialize (Md eq_refl)]).
    subst bf. rewrite <- (app_nil_r (_ ++ [_])) in Fi. change (@nil event) with (stroke_of []) in Fi.
    destruct (IH tail [] [] [] ((sq ++ stroke_of prev) ++ [Ev k_none OutputOnRelease 0]) cm nm true hm) as
      [s3 [prev3 [sq3 [rl3 [S3 [F3 [C3 [R3 M3]]]]]]]]; [exact Hn|exact At| |exact Md|exact Fi|].
    { intros _. constructor. }
    exists s3, prev3, sq3, rl3. split; [assumption|]. split; [assumption|]. split; [easy|].
    change (stroke_of []) with (@nil event) in M3. rewrite app_nil_r in M3.
    split; [|exact M3]. eapply runs_trans; [|exact R3]. apply runs_step.
    assert (Tx : (s ++ "^"%char :: t) ++ tail = s ++ "^"%char :: t ++ tail)
      by (rewrite <- ?app_assoc; now cbn [app]).
    rewrite Tx, skip_to; [|exact S0|now split]. now apply step_release.
Qed.

Definition comment (c : text) : Prop := match c with [] => True | x :: _ => is_comment_char x = true end.
Lemma comment_apart : forall c, comment c -> apart c.
Proof.
  intros [|x c] H; [exact I|]. cbn in *. destruct (is_ident_char x) eqn:E; [|reflexivity].
  apply ident_no_space in E. destruct E. congruence.
Qed.
Lemma comment_skipped : forall s c, spaces s -> comment c -> skip_space (s ++ c) = [].
Proof.
  intros s c S0 C. rewrite skip_spaces by exact S0. destruct c as [|x c]; [reflexivity|].
  cbn in C. cbn [skip_space]. rewrite C. destruct (is_space x) eqn:E; [|reflexivity].
  exfalso. clear - C E. revert C E. destruct x as [[] [] [] [] [] [] [] []]; vm_compute; discriminate.
Qed.

Definition start (skipping : bool) : sequence := if skipping then [Ev k_none NoMightMatch 0] else [].
Definition front_text (skipping : bool) (t : text) : text := if skipping then "?"%char :: t else t.

Lemma expression_parsed : forall skipping e s t c, (skipping = true -> inp = true) ->
  spaces s -> written gk e t -> comment c ->
  fine inp typing command skipping [] [] false 0 e (start skipping) ->
  exists rl, loop (S (length (s ++ front_text skipping t ++ c))) (s ++ front_text skipping t ++ c) p_init =
  POk (PS [] [] [] (meaning inp typing command false 0 e (start skipping)) (commands_of e) skipping rl false 0
          (holds types_modifiers e)).
Proof.
  intros skipping e s t c Hs S0 W C Fi.
  rewrite <- (app_nil_r (start skipping)) in Fi. change (@nil event) with (stroke_of []) in Fi.
  destruct (written_runs e t W c [] [] [] (start skipping) [] skipping false false)
    as [s' [prev' [sq' [rl [S' [F' [_ [R M]]]]]]]];
    [exact Hs|now apply comment_apart|intros _; constructor|easy|exact Fi|].
  change (stroke_of []) with (@nil event) in M. rewrite app_nil_r in M. cbn [within length] in M.
  exists rl.
  assert (G : runs (s ++ front_text skipping t ++ c) p_init
                (s' ++ c) (PS [] prev' [] sq' (commands_of e) skipping rl false 0 (holds types_modifiers e))).
  { destruct skipping; cbn [front_text].
    - eapply runs_trans; [|exact R]. apply runs_step. cbn [app]. rewrite skip_to; [|exact S0|now split].
      unfold parse_step. cbn [Ascii.eqb Bool.eqb]. change (is_quote "?") with false. rewrite Hs by reflexivity.
      reflexivity.
    - eapply runs_trans; [|exact R]. intros f L. destruct f as [|f]; [lia|]. exists (S f).
      split; [rewrite app_length in L; lia|]. cbn [parse_loop]. now rewrite skip_spaces by exact S0. }
  destruct (G _ (Nat.lt_succ_diag_r _)) as [f [L ->]]. destruct f as [|f]; [lia|]. cbn [parse_loop].
  rewrite comment_skipped by assumption. unfold parse_step. cbn [try_read_timeout try_read_number].
  rewrite flush_true by exact F'. now rewrite M.
Qed.
End Parse.

(** ** The end *)

Lemma removed_ending : forall s l, remove_all_from_end s l = without_ending (is_state s) l.
Proof.
  intros s l. destruct (without_spec (is_state s) l) as [E [A B]]. unfold remove_all_from_end.
  set (u := ending (is_state s) l) in *. set (w := without_ending (is_state s) l) in *.
  assert (K : forall u r, forallb (is_state s) u = true -> drop_state s (rev u ++ r) = drop_state s r).
  { clear. induction u as [|e u IH] using rev_ind; intros r H; [reflexivity|].
    rewrite forallb_app in H. apply andb_true_iff in H. destruct H as [H1 H2].
    cbn in H2. rewrite andb_true_r in H2. unfold is_state in H2.
    rewrite rev_app_distr. cbn [rev app drop_state]. rewrite H2. now apply IH. }
  rewrite E, rev_app_distr, K by exact A. destruct w as [|e w' _] using rev_ind; [reflexivity|].
  rewrite rev_app_distr. cbn [rev app drop_state]. specialize (B w' e eq_refl). unfold is_state in B.
  rewrite B. cbn [rev]. now rewrite rev_involutive.
Qed.

Lemma at_once_spec : forall l, all_pressed_at_once l = true <-> at_once l.
Proof.
  unfold all_pressed_at_once, at_once. intros l.
  assert (K : forall l, no_down_after_up true l = true <-> Forall (fun e => es e <> Down) l).
  { clear. induction l as [|e l IH]; [easy|]. cbn [no_down_after_up].
    rewrite Forall_cons_iff, <- IH. destruct (es e); split; try easy; intros [? ?]; easy. }
  assert (M : no_down_after_up false l = true <->
              exists a b, l = a ++ b /\ Forall (fun e => es e <> Up) a /\ Forall (fun e => es e <> Down) b).
  { induction l as [|e l IH].
    - split; [intros _; now exists [], []|reflexivity].
    - cbn [no_down_after_up].
      assert (C : (es e <> Up -> (no_down_after_up false l = true <->
        exists a b, e :: l = a ++ b /\ Forall (fun e => es e <> Up) a /\ Forall (fun e => es e <> Down) b))).
      { intros X. rewrite IH. split.
        - intros [a [b [-> [A B]]]]. exists (e :: a), b. repeat split; [now constructor|exact B].
        - intros [a [b [E0 [A B]]]]. destruct a as [|x a].
          + cbn in E0. subst b. inversion_clear B. now exists [], l.
          + injection E0 as -> E0. inversion_clear A. now exists a, b. }
      destruct (es e) eqn:S0; try (apply C; discriminate).
      rewrite K. split.
      + intros H. exists [], (e :: l). repeat split; [constructor|]. constructor; [congruence|exact H].
      + intros [a [b [E0 [A B]]]]. destruct a as [|x a].
        * cbn in E0. subst b. now inversion_clear B.
        * injection E0 as -> _. inversion_clear A. congruence. }
  exact M.
Qed.

Definition no_context_active (l : sequence) : Prop := Forall (fun e => ek e <> k_ContextActive) l.
Lemma no_context_check : forall inp l, no_context_active l -> check_context_active inp l = POk l.
Proof.
  intros inp l H. unfold check_context_active.
  assert (E : existsb (fun e => ek e =? k_ContextActive) l = false).
  { destruct (existsb (fun e => ek e =? k_ContextActive) l) eqn:E; [|reflexivity].
    apply existsb_exists in E. destruct E as [e [I0 E]]. apply N.eqb_eq in E.
    pose proof (proj1 (Forall_forall _ _) H e I0) as X. now elim X. }
  now rewrite E.
Qed.
Lemma no_context_without : forall f l, no_context_active l -> no_context_active (without_ending f l).
Proof.
  intros f l H. destruct (without_spec f l) as [E _]. unfold no_context_active in *. rewrite E in H.
  apply Forall_app in H. apply H.
Qed.

Theorem output_parsed : forall gk ty command e t c, written gk e t -> comment c ->
  let l := meaning false (typing false ty) command false 0 e [] in
  fine false (typing false ty) command false [] [] false 0 e [] -> no_context_active l ->
  exists l', held_output (holds (types_modifiers ty) e) l l' /\
    parse_sequence false gk ty (Some command) (t ++ c) = POk (l', commands_of e).
Proof.
  intros gk ty command e t c W C l Fi Nc.
  destruct (expression_parsed false gk ty command false e [] t c) as [rl P];
    [discriminate|constructor|exact W|exact C|exact Fi|].
  cbn [app front_text start] in P. fold l in P. unfold parse_sequence. rewrite P.
  unfold parse_end. cbn [p_together p_modified p_nmm p_cmds Nat.ltb Nat.leb]. cbn zeta.
  assert (R : release_pressed_keys false 0 (PS [] [] [] l (commands_of e) false rl false 0
                (holds (types_modifiers ty) e)) = PS [] [] [] l (commands_of e) false rl false 0
                (holds (types_modifiers ty) e)).
  { unfold release_pressed_keys. cbn. unfold p_set_pressed, p_set_seq. cbn. now rewrite app_nil_r. }
  rewrite R. cbn [p_hasmod p_seq].
  exists (if negb (holds (types_modifiers ty) e) && all_pressed_at_once l
          then without_ending (is_state Up) l else l).
  unfold held_output. split.
  - split.
    + intros -> H. apply at_once_spec in H. now rewrite H.
    + intros [-> |H]; [reflexivity|]. destruct (all_pressed_at_once l) eqn:E; [|now rewrite andb_false_r].
      apply at_once_spec in E. easy.
  - cbn [andb]. destruct (negb (holds (types_modifiers ty) e) && all_pressed_at_once l).
    + cbn [p_set_seq p_nmm p_seq]. unfold p_set_seq. cbn [p_nmm p_seq andb p_pressed]. rewrite removed_ending.
      now rewrite no_context_check by now apply no_context_without.
    + cbn [p_nmm p_seq andb]. now rewrite no_context_check.
Qed.

Lemma press_without : forall l, presses l -> presses (without_ending (is_state UpAsync) l).
Proof.
  intros l [e [I0 [D K]]]. destruct (without_spec (is_state UpAsync) l) as [E [A _]]. rewrite E in I0.
  apply in_app_or in I0. destruct I0 as [I0|I0]; [now exists e|].
  rewrite forallb_forall in A. apply A in I0. unfold is_state in I0. now rewrite D in I0.
Qed.

Theorem input_parsed : forall gk ty command skipping e s t c, spaces s -> written gk e t -> comment c ->
  let l := meaning true (typing true ty) command false 0 e (start skipping) in
  fine true (typing true ty) command skipping [] [] false 0 e (start skipping) ->
  presses l -> no_context_active l ->
  (skipping = true -> Forall (fun e => is_virtual_key (ek e) = false) l) ->
  parse_sequence true gk ty (Some command) (s ++ front_text skipping t ++ c) =
  POk (if skipping then without_ending (is_state UpAsync) l else l, commands_of e).
Proof.
  intros gk ty command skipping e s t c S0 W C l Fi Pr Nc Vi.
  destruct (expression_parsed true gk ty command skipping e s t c) as [rl P];
    [reflexivity|exact S0|exact W|exact C|exact Fi|].
  fold l in P. unfold parse_sequence. rewrite P.
  unfold parse_end. cbn [p_together p_modified p_nmm p_cmds Nat.ltb Nat.leb]. cbn zeta.
  destruct skipping.
  - cbn [p_seq p_set_seq]. unfold p_set_seq. cbn [p_nmm p_seq p_cmds]. rewrite removed_ending.
    rewrite has_press by now apply press_without. cbn [andb negb].
    assert (V : has_virtual_key (without_ending (is_state UpAsync) l) = false).
    { destruct (has_virtual_key (without_ending (is_state UpAsync) l)) eqn:E; [|reflexivity].
      unfold has_virtual_key in E. apply existsb_exists in E. destruct E as [x [I0 X]].
      specialize (Vi eq_refl). rewrite Forall_forall in Vi. rewrite Vi in X; [discriminate|].
      destruct (without_spec (is_state UpAsync) l) as [Q _]. rewrite Q. apply in_or_app. now left. }
    rewrite V. now rewrite no_context_check by now apply no_context_without.
  - cbn [p_nmm p_seq]. rewrite has_press by exact Pr. cbn [andb negb]. now rewrite no_context_check.
Qed.
