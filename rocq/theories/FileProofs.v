(** A configuration file means what FileSpec.v says about its lines. *)
From Coq Require Import String Ascii List Arith NArith ZArith Bool Lia Sorted.
From Verif Require Import Base Key Text TextSpec TextProofs ParseSeq Stage Config ConfigSpec ClientProofs
  MacroSpec MacroTokens MacroCalls ExprSpec ExprProofs ExpandSpec ExpandProofs ConfigLogical ConfigParse ConfigForward ConfigProofs ConfigShape
  FileSpec FileStore FileHeader FileLines.
From Verif Require ConfigProperties.
Import ListNotations.
Local Open Scope char_scope.
Local Open Scope nat_scope.

(** * The meaning of the stored blocks *)

Definition numbering (c : cstate) (n : text) : Z :=
  match find_named n c with Some x => nc_index x | None => 0%Z end.
Lemma numbered : forall c n z, named (c_commands c) n z -> numbering c n = z.
Proof. intros c n z [m H]. unfold numbering, find_named. now rewrite H. Qed.
Lemma maps_stored : forall c b x, block_rep (c_commands c) b x -> maps_of x = block_maps (numbering c) b.
Proof.
  intros c b x [A1 A2 A3 A4 A5 A6 A7]. unfold maps_of, block_maps. f_equal.
  - induction A5 as [|[i a] [j t] l l' [E H] F IH]; [reflexivity|]. cbn [map fst snd] in *. f_equal; [|exact IH]. subst j. f_equal.
    destruct a as [o|n], t as [o'|z]; cbn in *; try easy; [now subst|]. f_equal. symmetry. now apply numbered.
  - induction A6 as [|[n o] [o' z] l l' [E H] F IH]; [reflexivity|]. cbn [map fst snd cm_out cm_idx] in *. f_equal; [|exact IH]. subst o'.
    f_equal. symmetry. now apply numbered.
Qed.
Lemma active_stored : forall c met bs xs, Forall2 (block_rep (c_commands c)) bs xs -> forall on,
  active met on xs = active_blocks (numbering c) met on bs.
Proof.
  intros c met bs xs F. induction F as [|b x bs xs H F IH]; intros on; [reflexivity|]. cbn [active active_blocks].
  unfold applies. rewrite (br_sys _ _ _ H), (br_attrs _ _ _ H), (br_shares _ _ _ H), (maps_stored c b x H), !IH. reflexivity.
Qed.
Lemma stages_stored : forall cmds bs xs, Forall2 (block_rep cmds) bs xs -> Forall2 (Forall2 (block_rep cmds)) (stages bs) (ConfigSpec.cut xs).
Proof.
  intros cmds bs xs F. induction F as [|b x bs xs H F IH]; [constructor; constructor|]. cbn [stages ConfigSpec.cut].
  destruct F as [|b2 x2 bs xs H2 F]; [constructor; [constructor; [exact H|constructor]|constructor]|]. rewrite (br_stage _ _ _ H2).
  remember (stages (b2 :: bs)) as u eqn:Eu. remember (ConfigSpec.cut (x2 :: xs)) as v eqn:Ev.
  destruct (bl_stage b2); [constructor; [constructor; [exact H|constructor]|exact IH]|].
  destruct IH as [|s1 s2 l1 l2 A B]; constructor; auto.
Qed.
Theorem meaning_stored : forall d c met, represents d c -> ConfigSpec.meaning met (c_contexts c) = doc_meaning (numbering c) met d.
Proof.
  intros d c met R. unfold ConfigSpec.meaning, doc_meaning. pose proof (stages_stored _ _ _ (r_blocks _ _ R)) as F.
  induction F as [|s1 s2 l1 l2 A B IH]; [reflexivity|]. cbn [map]. now rewrite (active_stored c met s1 s2 A), IH.
Qed.

Lemma numbering_good : forall d c, represents d c ->
  (forall n, mentioned d n -> (numbering c n < 0)%Z) /\
  (forall n m, mentioned d n -> mentioned d m -> numbering c n = numbering c m -> n = m).
Proof.
  intros d c R. assert (G : forall n, mentioned d n -> named (c_commands c) n (numbering c n)).
  { intros n H. destruct (mentioned_found _ _ _ R H) as [x E]. unfold numbering. rewrite E. now apply named_find. }
  split.
  - intros n H. apply G in H. apply named_name in H as [m H].
    assert (I0 : In (numbering c n) (map nc_index (c_commands c))) by (apply in_map_iff; exists (NC n (numbering c n) m); auto).
    rewrite (r_index _ _ R) in I0. apply in_map_iff in I0 as [k [<- _]]. lia.
  - intros n m Hn Hm E. apply G in Hn. apply G in Hm. rewrite E in Hn. now apply (named_inj d c n m (numbering c m) R).
Qed.

Section File.
Variable typer : option (key * bool) -> text -> list stroke.
Variable regex_ok : text -> bool -> bool.
Variable read_file : text -> option (list text).
Variable current_system : text.
Local Notation parse t := (parse_file typer regex_ok read_file current_system 10 (split_lines t []) c_init).
Local Notation parse_config := (parse_config typer regex_ok read_file current_system).

Local Notation says := (file_says typer regex_ok read_file current_system).
(** parse_lines of parse_line at each level, and what it does *)
Definition deeper (n : nat) (ls : list text) (c : cstate) : pres cstate :=
  match n with O => PErr | S m => parse_file typer regex_ok read_file current_system m ls c end.
Definition says_deeper (n : nat) : doc -> list text -> doc -> Prop :=
  match n with O => fun _ _ _ => False | S m => says m end.
Lemma file_unfold : forall n ls c, parse_file typer regex_ok read_file current_system n ls c =
  lines_loop (parse_line typer regex_ok read_file current_system (deeper n)) (skip_bom ls) [] c.
Proof. intros n ls c. destruct n; reflexivity. Qed.
Lemma says_unfold : forall n d ls d', says n d ls d' = lines_say typer regex_ok read_file current_system (says_deeper n) d [] ls d'.
Proof. intros n d ls d'. destruct n; reflexivity. Qed.
Lemma unmarked_read : forall ls ls', unmarked ls ls' -> skip_bom ls = ls'.
Proof.
  intros ls ls' H. destruct H as [|l r|l r E]; [reflexivity| |].
  - cbn [skip_bom]. now rewrite skip_self.
  - cbn [skip_bom]. now rewrite E.
Qed.
Lemma deeper_parsed : forall n d ls ls' d' c, says_deeper n d ls' d' -> unmarked ls ls' -> represents d c ->
  exists c', deeper n ls c = POk c' /\ represents d' c'.
Proof.
  induction n as [|n IH]; intros d ls ls' d' c H U R; [destruct H|]. cbn [says_deeper deeper] in *. rewrite file_unfold, (unmarked_read _ _ U).
  rewrite says_unfold in H. eapply lines_parsed; eauto.
Qed.
Lemma lines_read : forall t ls, lines_of t ls -> forall c, parse_file typer regex_ok read_file current_system 10 (split_lines t []) c =
  lines_loop (parse_line typer regex_ok read_file current_system (deeper 10)) ls [] c.
Proof.
  intros t ls [ls' [-> [U [N0 F]]]] c. rewrite file_unfold, <- (unmarked_read _ _ U). f_equal. f_equal.
  assert (F' : Forall (fun l => ~ In line_end l) ls').
  { destruct U as [|l r|l r E]; [constructor| |exact F]. inversion F as [|? ? F1 F2]; subst. constructor; [|exact F2].
    rewrite in_app_iff. intros [H|H]; [|easy]. vm_compute in H. intuition discriminate. }
  rewrite split_joined by assumption. destruct ls' as [|l ls']; [easy|]. reflexivity.
Qed.
Theorem file_parsed : forall t ls d, lines_of t ls -> says 10 first_doc ls d ->
  exists c, parse t = POk c /\ represents d c.
Proof.
  intros t ls d L H. rewrite says_unfold in H.
  destruct (lines_parsed typer regex_ok read_file current_system (deeper 10) (says_deeper 10) (deeper_parsed 10) _ _ _ _ H c_init init_represents) as [c [E R]].
  exists c. split; [|exact R]. now rewrite (lines_read t ls L).
Qed.
Lemma macro_found : forall m n v, StronglySorted (fun a b => text_ltb a b = true) (map fst m) -> In (n, v) m <-> find_macro m n = Some v.
Proof.
  assert (Ir : forall a, text_ltb a a = false).
  { induction a as [|x a IH]; [reflexivity|]. cbn [text_ltb]. now rewrite N.ltb_irrefl, N.eqb_refl, IH. }
  intros m n v. induction m as [|[k w] m IH]; intros H; cbn [find_macro In]; [split; [easy|discriminate]|].
  apply StronglySorted_inv in H as [H F]. destruct (text_eqb k n) eqn:E.
  - apply text_eqb_eq in E. subst k. split; [|intros X; left; congruence]. intros [X|X]; [congruence|]. exfalso.
    assert (L : text_ltb n n = true); [|now rewrite Ir in L]. cbn [fst] in F. apply (proj1 (Forall_forall _ _) F). now apply (in_map fst) in X.
  - rewrite <- (IH H). split; [|auto]. intros [X|X]; [|exact X]. injection X as -> ->. now rewrite text_eqb_refl in E.
Qed.
Lemma in_filter_map : forall A B (f : A -> option B) l y, In y (filter_map f l) <-> exists x, In x l /\ f x = Some y.
Proof.
  intros A B f l y. induction l as [|x l IH]; cbn [filter_map In]; [split; [easy|intros [x [[] _]]]|]. destruct (f x) as [z|] eqn:E.
  - cbn [In]. rewrite IH. split.
    + intros [<-|[w [I0 W]]]; eauto.
    + intros [w [[<-|I0] W]]; [left; congruence|eauto].
  - rewrite IH. split; [intros [w [I0 W]]; eauto|]. intros [w [[<-|I0] W]]; [congruence|eauto].
Qed.

Lemma all_mapped : forall d c, represents d c -> (forallb nc_mapped (c_commands c) = true <-> forall n, mentioned d n -> mapped d n).
Proof.
  intros d c R. rewrite forallb_forall. split.
  - intros H n M. apply (r_mentioned _ _ R) in M. apply in_map_iff in M as [x [<- Hx]]. apply (r_mapped _ _ R x Hx). now apply H.
  - intros H x Hx. apply (r_mapped _ _ R x Hx). apply H. apply (r_mentioned _ _ R). apply in_map_iff. eauto.
Qed.
Lemma map_same : forall A (f : A -> A) l, (forall x, f x = x) -> map f l = l.
Proof. intros A f l H. rewrite <- (map_id l) at 2. now apply map_ext. Qed.
Lemma suppress_nothing : forall l, suppress_forwarded [] l = l.
Proof.
  intros l. unfold suppress_forwarded. generalize (seq 0 (length l)). intros s. revert l. induction s as [|n s IH]; intros l; [reflexivity|].
  cbn [fold_left]. apply IH.
Qed.

Theorem file_meaning : forall t ls d, ConfigProperties.types_keys typer -> lines_of t ls ->
  says 10 first_doc ls d ->
  complete d ->
  length (d_actions d) <= 256 -> (N.of_nat (length (d_logical d)) <= 3328)%N ->
  exists number_of cfg, parse_config t = POk cfg /\ cfg_actions cfg = d_actions d /\
    (cfg_grab cfg = x_grab (d_more d) /\ cfg_directives cfg = x_directives (d_more d) /\
     cfg_options cfg = x_options (d_more d) /\ cfg_includes cfg = x_files (d_more d)) /\
    (forall n k, In (n, k) (cfg_aliases cfg) <->
       is_virtual_key k = true /\ exists v, d_macros d n = Some v /\ cfg_key_by_name (d_logical d) v = k) /\
    (forall n, mentioned d n -> (number_of n < 0)%Z) /\
    (forall n m, mentioned d n -> mentioned d m -> number_of n = number_of m -> n = m) /\
    forall other down, logical_down (d_logical d) down ->
      (forall b k, In b (d_blocks d) -> In k (d_logical d) -> snd (bl_attrs b) = true -> held_in (lk_both k) (snd (fst (bl_attrs b))) = false) ->
      let said := map (map (fun m => fold_left (fun m k => written_maps k m) (rev (d_logical d)) m))
                    (doc_meaning number_of (met_with other down) d) in
      said = ConfigSpec.meaning (met_with other down) (cfg_contexts cfg) \/
      said = [] :: ConfigSpec.meaning (met_with other down) (cfg_contexts cfg).
Proof.
  intros t ls d Ht L H Hm Ba Bl. destruct (file_parsed t ls d L H) as [c [P R]].
  assert (Hb : bounded c) by (split; [now rewrite (r_actions _ _ R)|now rewrite (r_logical _ _ R)]).
  assert (F : finish_config c = POk (Config (fold_left replace_logical_key (rev (c_logical c)) (optimize_contexts (c_contexts c))) (c_actions c)
      (filter_map (fun nv : text * text => let k := cfg_key_by_name (c_logical c) (snd nv) in
        if is_virtual_key k then Some (fst nv, k) else None) (c_macros c)) (c_grab c) (c_directives c) (c_includes c) (c_options c))).
  { unfold finish_config. rewrite (r_unmapped _ _ R), (r_forward _ _ R).
    assert (E : negb (d_unmapped d) && negb (forallb nc_mapped (c_commands c)) = false).
    { destruct Hm as [->|Hm]; [reflexivity|]. apply (all_mapped d c R) in Hm. rewrite Hm. now rewrite andb_false_r. }
    rewrite E, suppress_nothing, (map_same _ (prepend_forward [])); [reflexivity|].
    intros x. unfold prepend_forward. now destruct (cc_stage x). }
  exists (numbering c). eexists. split; [unfold Config.parse_config; rewrite P; cbn [pbind]; exact F|]. cbn [cfg_actions cfg_contexts cfg_grab cfg_directives cfg_options cfg_includes cfg_aliases].
  split; [apply (r_actions _ _ R)|]. split; [rewrite <- (r_more _ _ R); repeat split|]. split.
  { intros n k. rewrite in_filter_map. split.
    - intros [[n' v] [I0 E]]. cbn [fst snd] in E. cbn zeta in E. destruct (is_virtual_key (cfg_key_by_name (c_logical c) v)) eqn:V; [|discriminate].
      injection E as <- <-. split; [exact V|]. exists v. rewrite <- (r_macros _ _ R), <- (r_logical _ _ R). split; [|reflexivity].
      now apply (macro_found _ _ _ (r_sorted _ _ R)).
    - intros [V [v [M K]]]. exists (n, v). rewrite <- (r_macros _ _ R) in M. rewrite <- (r_logical _ _ R) in K.
      split; [now apply (macro_found _ _ _ (r_sorted _ _ R))|]. cbn [fst snd]. cbn zeta. now rewrite K, V. } destruct (numbering_good d c R) as [G1 G2]. split; [exact G1|]. split; [exact G2|].
  intros other down D Hi. cbn zeta.
  assert (Id : map (prepend_forward (c_forward c)) (c_contexts c) = c_contexts c).
  { rewrite (r_forward _ _ R). apply map_same. intros x. unfold prepend_forward. now destruct (cc_stage x). }
  pose proof (ConfigProperties.C41_written_out_partial typer regex_ok read_file current_system other down t c Ht P Hb) as W.
  cbn zeta in W. rewrite Id, (r_logical _ _ R) in W. specialize (W D).
  rewrite (r_logical _ _ R), W.
  - pose proof (ConfigProperties.C40_loaded typer regex_ok read_file current_system (met_with other down) t c P) as M. cbn zeta in M.
    rewrite Id, (meaning_stored d c _ R) in M. destruct M as [->| ->]; [now left|right; reflexivity].
  - intros x k Hx Hk Ei. destruct (in_split _ _ Hx) as [l1 [l2 El]]. pose proof (r_blocks _ _ R) as Fb. rewrite El in Fb.
    apply Forall2_app_inv_r in Fb as [m1 [m2 [_ [F2 Eb]]]]. inversion F2 as [|b ? ? ? Rb _]; subst.
    pose proof (br_attrs _ _ _ Rb) as Ea. unfold attrs_of in Ea. specialize (Hi b k). rewrite <- Ea in Hi. cbn [fst snd] in Hi.
    apply Hi; [rewrite Eb, in_app_iff; cbn; auto|exact Hk|exact Ei].
Qed.

(** * Rejected files *)

Theorem unmapped_rejected : forall t ls d n, lines_of t ls -> says 10 first_doc ls d ->
  d_unmapped d = false -> mentioned d n -> ~ mapped d n -> parse_config t = PErr.
Proof.
  intros t ls d n L H U M Nm. destruct (file_parsed t ls d L H) as [c [P R]]. unfold Config.parse_config. rewrite P. cbn [pbind].
  unfold finish_config. rewrite (r_unmapped _ _ R), U.
  destruct (forallb nc_mapped (c_commands c)) eqn:E; [|reflexivity]. exfalso. apply Nm. now apply (proj1 (all_mapped d c R)).
Qed.

Lemma wrong_rejected : forall d c x, represents d c -> wrong typer d x -> parse_mapping typer x c = PErr.
Proof.
  intros d c x R H. destruct H as [b n s o out cmds [bs E] W S0 M In0 Ro|n s o W S0 M L U|t N0 Na].
  - unfold parse_mapping. rewrite read_word; [|exact W|apply spaces_apart; [exact S0|reflexivity]].
    rewrite skip_solid by (auto; split; reflexivity). destruct n as [|y n]; [destruct W; easy|].
    change (skip (T ">>") (">" :: ">" :: o)) with (Some o). cbn iota. destruct (mentioned_found _ _ _ R M) as [z Ef]. rewrite Ef.
    rewrite (output_read _ _ _ _ _ _ R Ro). cbn [pbind]. unfold add_command_mapping.
    change (find_named (y :: n) (c_set_actions (c_actions c ++ cmds) c)) with (find_named (y :: n) c). rewrite Ef.
    cbn [c_set_actions c_contexts]. pose proof (r_blocks _ _ R) as F. rewrite E in F. apply Forall2_last in F as [xs [x [Ec [_ Hx]]]].
    rewrite Ec, back_app.
    assert (Ex : existsb (fun o0 => (cm_idx o0 =? nc_index z)%Z) (cc_commands x) = true); [|now rewrite Ex].
    apply in_map_iff in In0 as [[n' o'] [En Hc]]. cbn in En. subst n'.
    destruct (in_split _ _ Hc) as [c1 [c2 Ecc]]. pose proof (br_cmds _ _ _ Hx) as Fc. rewrite Ecc in Fc.
    apply Forall2_app_inv_l in Fc as [k1 [k2 [_ [F3 Ek]]]]. inversion F3 as [|? cm ? ? [_ Hcm] _]; subst. cbn [fst] in Hcm.
    apply existsb_exists. exists cm. split; [rewrite Ek, in_app_iff; cbn; auto|]. apply Z.eqb_eq.
    apply (named_fun (c_commands c) (y :: n)); [exact Hcm|]. unfold find_named in Ef. now apply named_find.
  - unfold parse_mapping. rewrite read_word; [|exact W|apply spaces_apart; [exact S0|reflexivity]].
    rewrite skip_solid by (auto; split; reflexivity). destruct n as [|y n]; [destruct W; easy|].
    change (skip (T ">>") (">" :: ">" :: o)) with (Some o). cbn iota. rewrite (unmentioned_found _ _ _ R M), L, (r_unmapped _ _ R), U. reflexivity.
  - unfold parse_mapping. destruct (read_ident t) as [i q] eqn:Er. cbn zeta. apply read_ident_parts in Er as [Et _].
    assert (Su : skip_until (T ">>") (skip_space q) = None).
    { destruct (skip_until (T ">>") (skip_space q)) as [r|] eqn:Sk; [|reflexivity]. exfalso. apply skip_until_app in Sk as [a Sk].
      change (T ">>" ++ r) with (">" :: ">" :: r) in Sk. destruct (skip_space_split q) as [s [[S0 Eq]|[s' [cm [_ [_ [_ [_ E']]]]]]]].
      - apply (Na (i ++ s ++ a) r). rewrite Et, Eq, Sk, <- !app_assoc. reflexivity.
      - rewrite E' in Sk. now destruct a. }
    assert (Sk : skip (T ">>") (skip_space q) = None).
    { destruct (skip (T ">>") (skip_space q)) as [r|] eqn:Sk; [|reflexivity]. exfalso. destruct (skip_space q) as [|y z] eqn:Eq; [discriminate|].
      cbn [skip_until] in Su. now rewrite Sk in Su. }
    rewrite Su, Sk. now destruct i.
Qed.

Theorem line_rejected : forall parse_lines d c l, represents d c -> line_wrong typer d l ->
  parse_line typer regex_ok read_file current_system parse_lines l c = PErr.
Proof.
  intros parse_lines d c l R [Nd [t [s [x [X [S0 [-> [Hx [O W]]]]]]]]].
  rewrite (line_mappings typer regex_ok read_file current_system parse_lines d c l _ R Nd X). rewrite skip_spaces by exact S0.
  rewrite skip_space_first by (destruct x as [|y x]; [exact Logic.I|split; apply Hx]).
  change (T "@") with ["@"]. change (T "[") with ["["].
  rewrite !skip_char_none by (destruct x as [|y x]; [exact Logic.I|apply Hx]).
  pose proof (wrong_rejected _ _ x (rep_open d c false R) W) as E.
  assert (Nx : x <> []). { destruct W as [? n s1|n s1|]; [| |assumption]; (destruct n; [|discriminate]; now destruct s1). }
  cbn [mappings_loop]. destruct x as [|y x]; [easy|]. rewrite newline_eq, (outside_none _ _ O). cbn [of_sres pbind]. rewrite before_nil, E. reflexivity.
Qed.
Theorem directive_rejected : forall parse_lines d c l, represents d c -> directive_wrong read_file d l ->
  parse_line typer regex_ok read_file current_system parse_lines l c = PErr.
Proof.
  intros parse_lines d c l R [Nd [t [s [x [b [X [S0 [-> [Lb [Sb W]]]]]]]]]].
  rewrite (line_mappings typer regex_ok read_file current_system parse_lines d c l _ R Nd X). rewrite skip_solid; [|exact S0|split; reflexivity].
  change (skip (T "@") ("@" :: x)) with (Some x). cbn iota. unfold parse_directive. rewrite (r_sys _ _ R b Lb), Sb. cbn [negb].
  destruct W as [w r F A Nw|s1 q x r S1 Q Nq Rf].
  - assert (Ri : read_ident (w ++ r) = (w, r)).
    { destruct w as [|y w]; [|apply read_word; [split; [discriminate|exact F]|exact A]]. cbn [app] in *.
      destruct r as [|y r]; [reflexivity|]. cbn in A. unfold read_ident. cbn. now rewrite A. }
    rewrite Ri. cbn zeta. assert (Ne : forall n, In n (map T ["include"; "grab-device"; "skip-device"; "grab-device-id"; "skip-device-id"; "enforce-lowercase-commands";
      "allow-unmapped-commands"; "forward-modifiers"; "done"; "compose-key"; "macos-iso-keyboard"; "macos-toggle-fn"; "options"]%string) -> text_eqb w n = false).
    { intros n I0. destruct (text_eqb w n) eqn:E; [|reflexivity]. apply text_eqb_eq in E. now subst n. }
    assert (Nm : text_in w ["macos-iso-keyboard"; "macos-toggle-fn"]%string = false).
    { unfold text_in. cbn [existsb]. rewrite !Ne by (cbn; tauto). reflexivity. }
    rewrite Nm, !Ne by (cbn; tauto). reflexivity.
  - rewrite read_word; [|split; [discriminate|repeat constructor]|apply spaces_apart; [exact S1|now apply quote_apart]]. cbn zeta.
    rewrite skip_solid; [|exact S1|now apply quote_solid].
    cbn [text_eqb T list_ascii_of_string Ascii.eqb Bool.eqb andb read_string]. rewrite Q.
    destruct (string_read q x r Q Nq) as [E1 [E2 _]]. rewrite E1, E2. cbn [of_sres pbind fst snd]. rewrite Rf. reflexivity.
Qed.
Lemma lines_before : forall n d p ls d', lines_say typer regex_ok read_file current_system (says_deeper n) d p ls d' -> d_done d' = false ->
  let parse_lines := deeper n in
  forall c r, represents d c -> exists c', represents d' c' /\
  lines_loop (parse_line typer regex_ok read_file current_system parse_lines) (ls ++ r) p c =
  lines_loop (parse_line typer regex_ok read_file current_system parse_lines) r [] c'.
Proof.
  intros n d p ls d' H D' pl. induction H as [d|d ls D|d p l r d1 d2 D Nc L H IH|d p l x r d' D C H IH]; intros c r0 R.
  - exists c. auto.
  - congruence.
  - cbn [app lines_loop]. rewrite (r_done _ _ R), D. cbn zeta.
    destruct (line_parsed typer regex_ok read_file current_system pl (says_deeper n) (deeper_parsed n) d (p ++ l) d1 c L R) as [c1 [E R1]].
    destruct (IH D' c1 r0 R1) as [c' [R' E']]. exists c'. split; [exact R'|].
    pose proof (not_continued l Nc) as B. destruct (back (trim_space l)) as [y|].
    + rewrite B, E. exact E'.
    + rewrite E. exact E'.
  - cbn [app lines_loop]. rewrite (r_done _ _ R), D. cbn zeta. destruct C as [s [S0 ->]]. rewrite trim_continued by exact S0.
    rewrite back_app, pop_back_app. change (code "\" =? 92)%N with true. cbn iota. now apply IH.
Qed.
Theorem wrong_line_rejected : forall t a l b d, lines_of t (a ++ l :: b) -> says 10 first_doc a d ->
  d_done d = false -> (forall x, ~ continued l x) -> line_wrong typer d l \/ directive_wrong read_file d l -> parse_config t = PErr.
Proof.
  intros t a l b d L H D Nc W. rewrite says_unfold in H. unfold Config.parse_config. rewrite (lines_read _ _ L).
  destruct (lines_before 10 _ _ _ _ H D c_init (l :: b) init_represents) as [c [R E]].
  rewrite E. cbn [lines_loop]. rewrite (r_done _ _ R), D. cbn zeta.
  pose proof (not_continued l Nc) as B.
  assert (P : parse_line typer regex_ok read_file current_system (deeper 10) l c = PErr).
  { destruct W as [W|W]; [now apply line_rejected with (d := d)|now apply directive_rejected with (d := d)]. }
  destruct (back (trim_space l)) as [y|]; [rewrite B|]; cbn [app]; now rewrite P.
Qed.
End File.
