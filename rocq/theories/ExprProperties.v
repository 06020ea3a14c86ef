(** Key expressions mean what they say (C69). *)
From Coq Require Import String Ascii List Arith NArith ZArith Bool Lia Permutation.
From Verif Require Import Base Key KeyNames Text TextSpec TextProofs Match MatchSpec MatchProofs MatchLang
  MatchGroup MatchMore ParseSeq ParseProofs Replay
  Config ExprSpec ExprProofs MatchSpec.
Import ListNotations.
Local Open Scope N_scope.

(** * C69 Key expressions mean what they say *)

Definition keyn (s : string) : key := get_key_by_name (T s).
Definition in_text (s : string) : pres (sequence * list text) :=
  parse_sequence true get_key_by_name (generic_typer None) (Some action_key) (T s).

(** An output written as documented yields the events it stands for. *)
Theorem C69_output_partial : forall gk ty command e t c, written gk e t -> comment c ->
  let l := meaning false (typing false ty) command false 0 e [] in
  fine false (typing false ty) command false [] [] false 0 e [] -> no_context_active l ->
  exists l', held_output (holds (types_modifiers ty) e) l l' /\
    parse_sequence false gk ty (Some command) (t ++ c) = POk (l', commands_of e).
Proof. exact output_parsed. Qed.
Print Assumptions C69_output_partial.

(** So does an input, in which `?` may come first. *)
Theorem C69_input_partial : forall gk ty command skipping e s t c, spaces s -> written gk e t -> comment c ->
  let l := meaning true (typing true ty) command false 0 e (start skipping) in
  fine true (typing true ty) command skipping [] [] false 0 e (start skipping) ->
  ExprSpec.presses l -> no_context_active l ->
  (skipping = true -> Forall (fun e => is_virtual_key (ek e) = false) l) ->
  parse_sequence true gk ty (Some command) (s ++ front_text skipping t ++ c) =
  POk (if skipping then without_ending (is_state UpAsync) l else l, commands_of e).
Proof. exact input_parsed. Qed.
Print Assumptions C69_input_partial.

(** ** Typed texts *)

(** What is typed by events: each key but the modifiers, with the modifiers held. *)
Fixpoint types_as (held : key -> bool) (l : sequence) : list (key * list bool) * (key -> bool) :=
  match l with
  | [] => ([], held)
  | e :: r =>
      if mem_key (ek e) (map snd mod_keys) then
        match es e with
        | Down => types_as (fun k => if k =? ek e then true else held k) r
        | Up => types_as (fun k => if k =? ek e then false else held k) r
        | _ => types_as held r
        end
      else match es e with
           | Down => let '(x, h) := types_as held r in
                     ((ek e, map held (map snd mod_keys)) :: x, h)
           | _ => types_as held r
           end
  end.

Lemma type_mods : forall a1 a2 a3 a4 mods prev held rest,
  held first_logical = has_bits 1 prev -> held AltLeft = has_bits 2 prev ->
  held AltRight = has_bits 4 prev -> held (first_logical + 1) = has_bits 8 prev ->
  a1 = has_bits 1 mods -> a2 = has_bits 2 mods -> a3 = has_bits 4 mods -> a4 = has_bits 8 mods ->
  exists held', types_as held (flat_map (type_output_mod mods prev) mod_keys ++ rest) = types_as held' rest /\
    held' first_logical = a1 /\ held' AltLeft = a2 /\ held' AltRight = a3 /\ held' (first_logical + 1) = a4.
Proof.
  intros a1 a2 a3 a4 mods prev held rest H1 H2 H3 H4 A1 A2 A3 A4.
  unfold mod_keys. cbn [flat_map]. unfold type_output_mod. rewrite <- A1, <- A2, <- A3, <- A4.
  rewrite <- H1, <- H2, <- H3, <- H4.
  destruct a1, a2, a3, a4, (held first_logical) eqn:E1, (held AltLeft) eqn:E2, (held AltRight) eqn:E3,
    (held (first_logical + 1)) eqn:E4; cbn [xorb app];
    eexists; (split; [cbn; reflexivity|]); cbn; repeat split; assumption.
Qed.

Lemma release_types : forall prev held,
  held first_logical = has_bits 1 prev -> held AltLeft = has_bits 2 prev ->
  held AltRight = has_bits 4 prev -> held (first_logical + 1) = has_bits 8 prev ->
  exists held', types_as held (release_mods Up prev) = ([], held') /\ forall k, In k (map snd mod_keys) -> held' k = false.
Proof.
  intros prev held H1 H2 H3 H4. unfold release_mods, mod_keys. cbn [flat_map fst snd map].
  destruct (has_bits 1 prev), (has_bits 2 prev), (has_bits 4 prev), (has_bits 8 prev); cbn [app];
    eexists; (split; [cbn; reflexivity|]); intros k [<-|[<-|[<-|[<-|[]]]]]; cbn; assumption || reflexivity.
Qed.

Lemma type_output_types : forall l prev held rest,
  Forall (fun x => mem_key (st_key x) (map snd mod_keys) = false) l ->
  held first_logical = has_bits 1 prev -> held AltLeft = has_bits 2 prev ->
  held AltRight = has_bits 4 prev -> held (first_logical + 1) = has_bits 8 prev ->
  exists held', let '(sq, p) := type_output l prev in
    fst (types_as held (sq ++ rest)) =
      map (fun x => (st_key x, map (fun m => has_bits (fst m) (st_mods x)) mod_keys)) l ++ fst (types_as held' rest) /\
    snd (types_as held (sq ++ rest)) = snd (types_as held' rest) /\
    held' first_logical = has_bits 1 p /\ held' AltLeft = has_bits 2 p /\
    held' AltRight = has_bits 4 p /\ held' (first_logical + 1) = has_bits 8 p.
Proof.
  induction l as [|x l IH]; intros prev held rest F H1 H2 H3 H4.
  - exists held. cbn. now repeat split.
  - inversion_clear F as [|? ? Fx Fl]. cbn [type_output].
    destruct (type_mods _ _ _ _ (st_mods x) prev held
      ([Ev (st_key x) Down (st_value x); Ev (st_key x) Up (st_value x)] ++ fst (type_output l (st_mods x)) ++ rest)
      H1 H2 H3 H4 eq_refl eq_refl eq_refl eq_refl) as [h [E [B1 [B2 [B3 B4]]]]].
    specialize (IH (st_mods x) h rest Fl B1 B2 B3 B4). destruct IH as [h' IH]. exists h'.
    destruct (type_output l (st_mods x)) as [sq p]. cbn [fst] in E.
    rewrite <- !app_assoc, E. cbn [app types_as ek es]. rewrite Fx.
    destruct IH as [I1 [I2 I3]]. destruct (types_as h (sq ++ rest)) as [a b]. cbn [fst snd] in *.
    split; [|split; [exact I2|exact I3]]. rewrite I1. cbn [map app]. unfold mod_keys. cbn [map snd fst].
    now rewrite B1, B2, B3, B4.
Qed.

(** A text is typed key by key, each with exactly its modifiers held, and no modifier is
    left pressed.  Outside of groups keys which are held are released first. *)
Theorem C69_typed : forall in_group l, Forall (fun x => mem_key (st_key x) (map snd mod_keys) = false) l ->
  exists rest held, string_output in_group l = (if in_group then [] else [ev0 k_any Not]) ++ rest /\
    types_as (fun _ => false) rest =
      (map (fun x => (st_key x, map (fun m => has_bits (fst m) (st_mods x)) mod_keys)) l, held) /\
    forall k, In k (map snd mod_keys) -> held k = false.
Proof.
  intros g l F. unfold string_output. destruct (type_output l 0) as [sq p] eqn:E.
  destruct (type_output_types l 0 (fun _ => false) (release_mods Up p) F) as [h H]; try reflexivity.
  rewrite E in H. destruct H as [H1 [H2 [B1 [B2 [B3 B4]]]]].
  destruct (release_types p h B1 B2 B3 B4) as [h' [R K]]. rewrite R in H1, H2. cbn [fst snd] in *.
  exists (sq ++ release_mods Up p), h'. split; [reflexivity|]. split; [|exact K].
  destruct (types_as (fun _ => false) (sq ++ release_mods Up p)) as [a b]. cbn [fst snd] in *.
  rewrite app_nil_r in H1. now subst.
Qed.
Print Assumptions C69_typed.

(** ** What is matched by the text of an input *)

(** The nestings of C03, as expressions *)
Fixpoint of_iexpr (x : iexpr) (r : expr) : expr :=
  match x with
  | IKey k => EKeys false [k] r
  | ISeq a b => of_iexpr a (of_iexpr b r)
  | IHold k a => EHold false [k] (of_iexpr a EEnd) r
  end.

Lemma ending_app : forall f l e, f e = false -> ending f (l ++ [e]) = [].
Proof.
  intros f l e H. induction l as [|x l IH]; cbn [app ending].
  - cbn [forallb]. now rewrite H.
  - replace (forallb f (x :: l ++ [e])) with false; [exact IH|]. symmetry. cbn [forallb].
    rewrite forallb_app. cbn [forallb]. rewrite H. now rewrite !andb_false_r.
Qed.
Lemma ending_more : forall f l b, forallb f b = true -> ending f l = [] -> ending f (l ++ b) = b.
Proof.
  intros f l b B. induction l as [|x l IH]; cbn [app ending]; intros H.
  - destruct b as [|y b]; [reflexivity|]. cbn [ending]. now rewrite B.
  - destruct (forallb f (x :: l)) eqn:E; [discriminate|]. specialize (IH H).
    replace (forallb f (x :: l ++ b)) with false; [exact IH|]. symmetry.
    cbn [forallb] in *. rewrite forallb_app, B, andb_true_r. exact E.
Qed.

(** The events of such an expression end with a press and releases. *)
Lemma icompile_ends : forall x, exists a k b, icompile x = a ++ ev0 k Down :: b /\ In k (ikeys x) /\
  forallb (is_state UpAsync) b = true.
Proof.
  induction x as [k|x IHx y IHy|k x IHx].
  - exists [], k, [ev0 k UpAsync]. repeat split; now left.
  - destruct IHy as [a [k [b [E [I0 B]]]]]. exists (icompile x ++ a), k, b. cbn. rewrite E, <- app_assoc.
    repeat split; [apply in_or_app; now right|exact B].
  - destruct IHx as [a [j [b [E [I0 B]]]]]. exists (ev0 k Down :: a), j, (b ++ [ev0 k UpAsync]).
    cbn. rewrite E, <- app_assoc. repeat split; [now right|]. rewrite forallb_app, B. reflexivity.
Qed.
Lemma in_time_press : forall l k b, k <> k_timeout -> forallb (is_state UpAsync) b = true ->
  in_time true (l ++ ev0 k Down :: b) = l ++ ev0 k Down :: b.
Proof.
  intros l k b K B. unfold in_time.
  assert (W : without_ending (is_state UpAsync) (l ++ ev0 k Down :: b) = l ++ [ev0 k Down]).
  { unfold without_ending. change (l ++ ev0 k Down :: b) with (l ++ [ev0 k Down] ++ b).
    rewrite (app_assoc l [ev0 k Down] b). rewrite ending_more; [|exact B|now apply ending_app].
    rewrite app_length, Nat.add_sub. rewrite firstn_app, Nat.sub_diag, firstn_O, app_nil_r. apply firstn_all. }
  rewrite W, rev_app_distr. cbn. apply N.eqb_neq in K. now rewrite K.
Qed.

Lemma of_iexpr_meaning : forall ty command x r held n l, Forall real_key (ikeys x) ->
  meaning true ty command held n (of_iexpr x r) l = meaning true ty command held n r (l ++ icompile x).
Proof.
  induction x as [k|x IHx y IHy|k x IHx]; intros r held n l F; cbn [of_iexpr icompile ikeys] in *.
  - reflexivity.
  - apply Forall_app in F. destruct F as [F1 F2]. rewrite IHx, IHy by assumption. now rewrite app_assoc.
  - inversion_clear F as [|? ? Fk Fx]. cbn [meaning]. rewrite IHx by assumption. cbn [meaning].
    f_equal. unfold pressing, all, released. cbn [andb app map rev]. rewrite <- !app_assoc. cbn [app].
    destruct (icompile_ends x) as [a [j [b [E [I0 B]]]]]. rewrite E. rewrite <- !app_assoc. cbn [app].
    pose proof (proj1 (Forall_forall _ _) Fx j I0) as [_ [_ J]].
    change (Ev k Down 0 :: a ++ ev0 j Down :: b ++ [Ev k UpAsync 0])
      with ((Ev k Down 0 :: a) ++ ev0 j Down :: (b ++ [Ev k UpAsync 0])).
    rewrite (app_assoc l). rewrite in_time_press; [|exact J|rewrite forallb_app, B; reflexivity].
    rewrite <- app_assoc. reflexivity.
Qed.
Lemma of_iexpr_fine : forall ty command sk x r mods prev rel n l,
  (forall prev l, fine true ty command sk mods prev rel n r l) ->
  fine true ty command sk mods prev rel n (of_iexpr x r) l.
Proof.
  induction x as [k|x IHx y IHy|k x IHx]; intros r mods prev rel n l H; cbn [of_iexpr fine].
  - split; [discriminate|apply H].
  - apply IHx. intros. now apply IHy.
  - split; [|apply H]. apply IHx. intros. exact I.
Qed.
Lemma of_iexpr_commands : forall x r, commands_of (of_iexpr x r) = commands_of r.
Proof. induction x as [k|x IHx y IHy|k x IHx]; intros r; cbn; [reflexivity| |reflexivity]. now rewrite IHx, IHy. Qed.
Lemma icompile_keys : forall x e, In e (icompile x) -> In (ek e) (ikeys x).
Proof.
  induction x as [k|x IHx y IHy|k x IHx]; intros e H; cbn in *.
  - destruct H as [<-|[<-|[]]]; now left.
  - apply in_app_or in H. apply in_or_app. destruct H; [left|right]; auto.
  - destruct H as [<-|H]; [now left|]. apply in_app_or in H. destruct H as [H|[<-|[]]]; [right; auto|now left].
Qed.

Lemma nested_parsed : forall gk ty command x t c,
  written gk (of_iexpr x EEnd) t -> comment c -> Forall real_key (ikeys x) -> ~ In k_ContextActive (ikeys x) ->
  parse_sequence true gk ty (Some command) (t ++ c) = POk (icompile x, []).
Proof.
  intros gk ty command x t c W C F A.
  pose proof (input_parsed gk ty command false (of_iexpr x EEnd) [] t c (Forall_nil _) W C) as H.
  cbn zeta in H. rewrite of_iexpr_meaning in H by assumption. cbn [meaning start app] in H.
  rewrite of_iexpr_commands in H. cbn [commands_of front_text] in H. apply H; [| | |discriminate].
  - apply of_iexpr_fine. intros. exact I.
  - destruct (icompile_ends x) as [a [k [b [E [I0 _]]]]]. exists (ev0 k Down). rewrite E.
    repeat split; [apply in_or_app; right; now left|]. apply (proj1 (Forall_forall _ _) F k I0).
  - apply Forall_forall. intros e I0 K. apply icompile_keys in I0. rewrite K in I0. contradiction.
Qed.

(** The text of an input made of keys, sequences and held keys is matched by exactly the
    histories which press its keys in order, holding what is to be held. *)
Theorem C69_matches_nested : forall gk ty command x t c,
  written gk (of_iexpr x EEnd) t -> comment c ->
  NoDup (ikeys x) -> Forall real_key (ikeys x) -> ~ In k_ContextActive (ikeys x) ->
  exists ex, parse_sequence true gk ty (Some command) (t ++ c) = POk (ex, []) /\
    forall sq, plain sq -> exists r, match_keys ex sq = Some (r, [], None) /\
      (r = Matched <-> ifulfils x sq) /\ (r = MightMatch <-> imight x sq).
Proof.
  intros gk ty command x t c W C N0 F A. exists (icompile x). split; [now apply nested_parsed|].
  intros sq P. now apply match_iexpr.
Qed.
Print Assumptions C69_matches_nested.

(** The text of a group is matched by pressing its keys in any order. *)
Theorem C69_matches_group : forall gk ty command ks t c,
  written gk (EKeys true ks EEnd) t -> comment c ->
  NoDup ks -> Forall real_key ks -> ~ In k_ContextActive ks ->
  exists ex, parse_sequence true gk ty (Some command) (t ++ c) = POk (ex, []) /\
    forall sq, plain sq -> alternating sq -> exists r, match_keys ex sq = Some (r, [], None) /\
      (r = Matched <-> gfulfils ks sq) /\ (r = MightMatch <-> gmight ks sq).
Proof.
  intros gk ty command ks t c W C N0 F A. exists (gcompile ks). split.
  - pose proof (input_parsed gk ty command false (EKeys true ks EEnd) [] t c (Forall_nil _) W C) as H.
    cbn [meaning start app fine commands_of front_text] in H.
    assert (E : pressing true true ks ++ all ks (released true) = gcompile ks).
    { unfold pressing, gcompile, all. cbn. now rewrite <- app_assoc. }
    rewrite E in H. apply H; [split; [discriminate|exact I]| | |discriminate].
    + destruct ks as [|k ks].
      { exfalso. inversion W as [|? ? ? ? ? ? ? K| | | | | |]; subst. inversion K. congruence. }
      exists (ev0 k Down). repeat split; [|apply (Forall_inv F)].
      unfold gcompile. apply in_or_app. right. now left.
    + apply Forall_forall. intros e I0 K. unfold gcompile in I0.
      repeat rewrite in_app_iff in I0. repeat rewrite in_map_iff in I0.
      destruct I0 as [[k [<- I0]]|[[k [<- I0]]|[k [<- I0]]]]; cbn in K; subst; contradiction.
  - intros sq P B. now apply match_group.
Qed.
Print Assumptions C69_matches_group.

(** An input followed by a time span is matched when the span has passed, and one followed
    by a negated span when something happens within it. *)
Theorem C69_matches_wait : forall gk ty command x neg ms t c,
  written gk (of_iexpr x (EWait neg ms EEnd)) t -> comment c ->
  NoDup (ikeys x) -> Forall real_key (ikeys x) -> ~ In k_ContextActive (ikeys x) -> ms <= 4095 ->
  exists ex w, parse_sequence true gk ty (Some command) (t ++ c) = POk (ex, []) /\
    ek w = k_timeout /\ ev w = ms /\
    forall h, plain h -> ifulfils x h ->
      match_keys ex h = Some (MightMatch, [], Some w) /\
      forall elapsed, exists r, match_keys ex (h ++ [Ev k_timeout Up elapsed]) = Some (r, [], None) /\
        (r = Matched \/ r = NoMatch) /\ (r = Matched <-> if neg then elapsed < ms else ms <= elapsed).
Proof.
  intros gk ty command x neg ms t c W C N0 F A M.
  set (w := Ev k_timeout (wait_state true neg false) ms).
  assert (Wa : wait (wait_state true neg false) ms (icompile x) = icompile x ++ [w]).
  { unfold wait. destruct (rev (icompile x)) as [|[k s v] r] eqn:R.
    - apply (f_equal (@length _)) in R. rewrite rev_length in R. destruct x as [|x y|]; try discriminate.
      destruct (icompile_ends (ISeq x y)) as [a [j [b [E _]]]]. rewrite E, app_length in R. cbn in R. lia.
    - assert (I0 : In (Ev k s v) (icompile x)) by (apply in_rev; rewrite R; now left).
      apply icompile_keys in I0. pose proof (proj1 (Forall_forall _ _) F _ I0) as [_ [_ J]]. cbn in J.
      apply N.eqb_neq in J. rewrite J. cbn [andb]. now rewrite N.min_r by exact M. }
  exists (icompile x ++ [w]), w. split; [|split; [reflexivity|split; [reflexivity|]]].
  - pose proof (input_parsed gk ty command false (of_iexpr x (EWait neg ms EEnd)) [] t c (Forall_nil _) W C) as H.
    cbn zeta in H. rewrite of_iexpr_meaning in H by assumption. cbn [meaning start app] in H.
    rewrite of_iexpr_commands in H. cbn [commands_of front_text] in H. rewrite Wa in H.
    destruct (icompile_ends x) as [a [k [b [E [I0 _]]]]].
    assert (Pr : forall l l', ExprSpec.presses (l ++ icompile x ++ l')).
    { intros l l'. exists (ev0 k Down). rewrite E. repeat split.
      - apply in_or_app; right. apply in_or_app; left. apply in_or_app; right. now left.
      - apply (proj1 (Forall_forall _ _) F k I0). }
    apply H; [|apply (Pr [])| |discriminate].
    + clear - F Pr. revert Pr. generalize (@nil event) as l.
      assert (G : forall x l r prev, Forall real_key (ikeys x) ->
                  (forall prev, fine true (typing true ty) command false [] prev false 0 r (l ++ icompile x)) ->
                  fine true (typing true ty) command false [] prev false 0 (of_iexpr x r) l).
      { clear. induction x as [k|x IHx y IHy|k x IHx]; intros l r prev F H; cbn [of_iexpr fine icompile ikeys] in *.
        - split; [discriminate|apply H].
        - apply Forall_app in F. destruct F as [F1 F2]. apply IHx; [exact F1|]. intros p. apply IHy; [exact F2|].
          intros q. rewrite <- app_assoc. apply H.
        - split; [apply of_iexpr_fine; intros; exact I|].
          pose proof (of_iexpr_meaning (typing true ty) command (IHold k x) r false 0%nat l F) as E.
          inversion_clear F as [|? ? Fk Fx]. rewrite of_iexpr_meaning by exact Fx. cbn [meaning].
          destruct (icompile_ends x) as [a [j [b [Ei [I0 B]]]]].
          pose proof (proj1 (Forall_forall _ _) Fx j I0) as [_ [_ J]].
          specialize (H []).
          replace (in_time true (((l ++ pressing true false [k]) ++ icompile x) ++ all (rev [k]) (released true)))
            with (l ++ ev0 k Down :: icompile x ++ [ev0 k UpAsync]); [exact H|].
          unfold pressing, all, released. cbn [andb app map rev]. rewrite Ei, <- !app_assoc. cbn [app].
          change (Ev k Down 0 :: a ++ ev0 j Down :: b ++ [Ev k UpAsync 0])
            with ((Ev k Down 0 :: a) ++ ev0 j Down :: (b ++ [Ev k UpAsync 0])).
          rewrite (app_assoc l). rewrite in_time_press; [|exact J|rewrite forallb_app, B; reflexivity].
          now rewrite <- app_assoc. }
      intros l Pr. apply G; [exact F|]. intros p. cbn. split; [|exact I]. split; [|discriminate].
      specialize (Pr l []). now rewrite app_nil_r in Pr.
    + apply Forall_forall. intros e Ie K. apply in_app_or in Ie. destruct Ie as [Ie|[<-|[]]]; [|discriminate].
      apply icompile_keys in Ie. rewrite K in Ie. contradiction.
  - intros h Ph Fh. destruct (match_timeout x w h 0 N0 F Ph Fh) as [M1 _]; [reflexivity|destruct neg; cbn; auto|].
    split; [exact M1|]. intros el.
    destruct (match_timeout x w h el N0 F Ph Fh) as [_ M2]; [reflexivity|destruct neg; cbn; auto|].
    destruct M2 as [r [M2 [M3 M4]]]. exists r. split; [exact M2|split; [exact M3|]]. rewrite M4. destruct neg; reflexivity.
Qed.
Print Assumptions C69_matches_wait.

(** ** Exceptions and cases *)

(** `!A` a second time, with A still not to be pressed, does not say the same again: it
    demands a release of A. *)
Theorem C69_input_refuted : exists l,
  parse_sequence true get_key_by_name (generic_typer None) (Some action_key) (T "!A B !A") = POk (l, []) /\
  l = [ev0 30 Not; ev0 48 Down; ev0 48 UpAsync; ev0 30 Up] /\
  match_keys l [ev0 48 Down] = Some (MightMatch, [], None) /\
  match_keys l [ev0 48 Down; ev0 48 Up] = Some (MightMatch, [], None).
Proof. eexists. split; [vm_compute; reflexivity|]. repeat split; reflexivity. Qed.
Print Assumptions C69_input_refuted.

(** `!B` after a key of an output keeps the key pressed: `A C` releases A in between, but
    `A !B C` presses C while A is held. *)
Theorem C69_output_refuted :
  parse_sequence false get_key_by_name (generic_typer None) (Some action_key) (T "A C") =
    POk ([ev0 30 Down; ev0 30 Up; ev0 46 Down; ev0 46 Up], []) /\
  parse_sequence false get_key_by_name (generic_typer None) (Some action_key) (T "A !B C") =
    POk ([ev0 30 Down; ev0 48 Not; ev0 46 Down], []).
Proof. split; vm_compute; reflexivity. Qed.
Print Assumptions C69_output_refuted.

Lemma name_word : forall gk n k, forallb is_ident_char n = true ->
  match n with c :: _ => is_digit c = false | [] => False end -> gk n = k -> k <> k_none -> name_of gk n k.
Proof.
  intros gk n k I0 D G K. repeat split; try assumption.
  - now destruct n.
  - apply Forall_forall. now apply forallb_forall.
  - exfalso. destruct H0 as [Hd F]. destruct d as [|c d]; [congruence|]. subst n. cbn in D.
    inversion_clear F. congruence.
  - exfalso. destruct H0 as [Hd F]. destruct d as [|c d]; [congruence|]. subst n. cbn in D.
    inversion_clear F. congruence.
Qed.

Ltac name := apply name_word; [reflexivity|reflexivity|reflexivity|discriminate].
Ltac blank := repeat constructor.
Ltac names := first
  [ apply (names_nil _ []); blank
  | apply (names_cons _ [] (T "X")); [blank|name|names|exact I || reflexivity]
  | apply (names_cons _ (T " ") (T "Y")); [blank|name|names|exact I || reflexivity] ].

(** README.md: `(A B)`, `A{B}`, `!B`, times, texts and commands *)
Definition example : expr :=
  EHold false [keyn "Shift"] (EKeys false [keyn "A"] EEnd)
    (ERelease (ENot (keyn "B") (EKeys true [keyn "X"; keyn "Y"]
      (EWait false 500 (ECommand (T "ls (x)") (EString (T "ab") EEnd)))))).
Lemma example_written : written get_key_by_name example (T "Shift{A} ^ !B (X Y) 500ms $(ls (x)) 'ab'").
Proof.
  apply (w_hold _ [] false _ (T "Shift") [] _ (T "A")); [blank|apply keys_one; name|blank| |].
  { apply (w_keys _ [] false _ (T "A") _ []); [blank|apply keys_one; name|intros _; exact I|constructor; blank]. }
  apply (w_release _ (T " ")); [blank|].
  apply (w_not _ (T " ") (T "B")); [blank|name|reflexivity|].
  apply (w_keys _ (T " ") true _ (T "(X Y)") _ (T " 500ms $(ls (x)) 'ab'")); [blank| |discriminate|].
  { apply (keys_group _ _ (T "X Y")); [discriminate|names]. }
  apply (w_wait _ (T " ") false (T "500")); [blank|split; [discriminate|repeat constructor]|reflexivity|vm_compute; discriminate|].
  apply (w_command _ (T " ") (T "ls (x)")); [blank| |].
  { repeat (apply balanced_char; [discriminate|discriminate|]).
    apply (balanced_parens (T "x") []); repeat constructor; discriminate. }
  apply (w_string _ (T " ") "'"%char (T "ab") _ []); [blank|reflexivity| |constructor; blank].
  intros H. repeat (destruct H as [H|H]; [discriminate|]). exact H.
Qed.
Example C69_output_case :
  let ty := generic_typer None in
  fine false (typing false ty) action_key false [] [] false 0 example [] /\
  no_context_active (meaning false (typing false ty) action_key false 0 example []) /\
  commands_of example = [T "ls (x)"] /\
  meaning false (typing false ty) action_key false 0 example [] =
    [ev0 (keyn "Shift") Down; ev0 (keyn "A") Down; ev0 (keyn "A") Up; ev0 (keyn "Shift") Up;
     ev0 k_none OutputOnRelease; ev0 (keyn "B") Not;
     ev0 (keyn "X") Down; ev0 (keyn "Y") Down; ev0 (keyn "X") Up; ev0 (keyn "Y") Up;
     Ev k_timeout Down 500; ev0 (action_key 0) Down;
     ev0 k_any Not; ev0 (keyn "A") Down; ev0 (keyn "A") Up; ev0 (keyn "B") Down; ev0 (keyn "B") Up].
Proof.
  split; [|split; [|split; vm_compute; reflexivity]].
  - cbn. repeat split; try reflexivity; try discriminate; repeat constructor; cbn; intuition discriminate.
  - repeat constructor; vm_compute; discriminate.
Qed.

(** `?A{!250ms} !C` *)
Definition example_in : expr :=
  EHold false [keyn "A"] (EWait true 250 EEnd) (ENot (keyn "C") EEnd).
Example C69_input_case :
  let ty := generic_typer None in
  written get_key_by_name example_in (T "A{!250ms} !C") /\
  fine true (typing true ty) action_key true [] [] false 0 example_in (start true) /\
  ExprSpec.presses (meaning true (typing true ty) action_key false 0 example_in (start true)) /\
  no_context_active (meaning true (typing true ty) action_key false 0 example_in (start true)) /\
  Forall (fun e => is_virtual_key (ek e) = false)
    (meaning true (typing true ty) action_key false 0 example_in (start true)) /\
  parse_sequence true get_key_by_name ty (Some action_key) (T "?A{!250ms} !C # c") =
    POk ([ev0 k_none NoMightMatch; ev0 30 Down; Ev k_timeout NotTimeoutUpDown 250; ev0 30 UpAsync; ev0 30 Up;
          ev0 46 Not], []).
Proof.
  split; [|split; [|split; [|split; [|split]]]].
  - apply (w_hold _ [] false _ (T "A") [] _ (T "!250ms")); [blank|apply keys_one; name|blank| |].
    { apply (w_wait _ [] true (T "250") 250 _ []); [blank|split; [discriminate|repeat constructor]|reflexivity|vm_compute; discriminate|constructor; blank]. }
    apply (w_not _ (T " ") (T "C") _ _ []); [blank|name|exact I|constructor; blank].
  - cbn. repeat split; try reflexivity; try discriminate; try (intros []; fail); try (vm_compute; discriminate).
    exists (Ev 30 Down 0). repeat split; [right; now left|discriminate].
  - exists (Ev 30 Down 0). repeat split; [vm_compute; auto|discriminate].
  - repeat constructor; vm_compute; discriminate.
  - repeat constructor.
  - vm_compute. reflexivity.
Qed.

Example C69_typed_case :
  Forall (fun x => mem_key (st_key x) (map snd mod_keys) = false) (generic_typer None (T "Ab")) /\
  fst (types_as (fun _ => false) (string_output true (generic_typer None (T "Ab")))) =
    [(keyn "A", [true; false; false; false]); (keyn "B", [false; false; false; false])].
Proof. split; [repeat constructor|vm_compute; reflexivity]. Qed.

Example C69_matches_case :
  let x := IHold (keyn "Control") (ISeq (IKey (keyn "A")) (IKey (keyn "B"))) in
  written get_key_by_name (of_iexpr x EEnd) (T "Control{A B}") /\
  NoDup (ikeys x) /\ Forall real_key (ikeys x) /\ ~ In k_ContextActive (ikeys x) /\
  match in_text "Control{A B}" with
  | POk (ex, _) => match_keys ex [ev0 (keyn "Control") Down; ev0 30 Down; ev0 48 Down; ev0 30 Up] = Some (Matched, [], None) /\
                   match_keys ex [ev0 (keyn "Control") Down; ev0 (keyn "Control") Up; ev0 30 Down] = Some (NoMatch, [], None)
  | _ => False
  end /\
  written get_key_by_name (of_iexpr (IKey (keyn "A")) (EWait true 300 EEnd)) (T "A !300ms").
Proof.
  split; [|split; [|split; [|split; [|split]]]].
  - apply (w_hold _ [] false _ (T "Control") [] _ (T "A B")); [blank|apply keys_one; name|blank| |constructor; blank].
    apply (w_keys _ [] false _ (T "A") _ (T " B")); [blank|apply keys_one; name|reflexivity|].
    apply (w_keys _ (T " ") false _ (T "B") _ []); [blank|apply keys_one; name|intros _; exact I|constructor; blank].
  - repeat constructor; vm_compute; intuition discriminate.
  - repeat constructor; vm_compute; discriminate.
  - vm_compute. intuition discriminate.
  - vm_compute. now split.
  - apply (w_keys _ [] false _ (T "A") _ (T " !300ms")); [blank|apply keys_one; name|reflexivity|].
    apply (w_wait _ (T " ") true (T "300") 300 _ []); [blank|split; [discriminate|repeat constructor]|reflexivity|vm_compute; discriminate|constructor; blank].
Qed.

Example C69_group_case :
  written get_key_by_name (EKeys true [keyn "X"; keyn "Y"] EEnd) (T "(X Y)") /\ NoDup [keyn "X"; keyn "Y"] /\
  Forall real_key [keyn "X"; keyn "Y"] /\ ~ In k_ContextActive [keyn "X"; keyn "Y"].
Proof.
  split; [|split; [|split]].
  - apply (w_keys _ [] true _ (T "(X Y)") _ []); [blank| |discriminate|constructor; blank].
    apply (keys_group _ _ (T "X Y")); [discriminate|names].
  - repeat constructor; vm_compute; intuition discriminate.
  - repeat constructor; vm_compute; discriminate.
  - vm_compute. intuition discriminate.
Qed.
