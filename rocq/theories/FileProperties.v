(** Configuration files mean what their lines say (C70), with macros expanded (C71). *)
From Coq Require Import String Ascii List Arith NArith ZArith Bool Lia.
From Verif Require Import Base Key KeyNames Text TextSpec TextProofs ParseSeq Stage Config Replay ConfigSpec ConfigLogical
  MacroSpec MacroCalls ExprSpec ExprProofs ExpandSpec ExpandProofs FileSpec FileStore FileLines FileProofs.
From Verif Require ConfigProperties ExprProperties ClientProofs.
Import ListNotations.
Local Open Scope char_scope.
Local Open Scope nat_scope.

Section Properties.
Variable typer : option (key * bool) -> text -> list stroke.
Variable regex_ok : text -> bool -> bool.
Variable read_file : text -> option (list text).
Variable current_system : text.
Local Notation parse_config := (parse_config typer regex_ok read_file current_system).
Local Notation file_says := (file_says typer regex_ok read_file current_system 10).

(** ** C70 A configuration file means what its lines say *)

(** A file whose lines say [d] is loaded; what is active in each stage of the resulting
    configuration is what the blocks of [d] say, with the logical keys written out as both
    of their keys, and its terminal commands are those of the outputs in their order.  Its
    device filters, directives, options and included files are those of the lines, and the
    virtual keys which were given a name are the macros which stand for one.  A stage which
    the file begins with, but which contains nothing, may be missing.  Not for files with
    forwarded modifiers and headers which exclude logical modifiers. *)
Theorem C70_file_partial : forall t ls d, ConfigProperties.types_keys typer -> lines_of t ls ->
  file_says first_doc ls d -> complete d ->
  length (d_actions d) <= 256 -> (N.of_nat (length (d_logical d)) <= 3328)%N ->
  exists number_of cfg, parse_config t = POk cfg /\ cfg_actions cfg = d_actions d /\
    (cfg_grab cfg = x_grab (d_more d) /\ cfg_directives cfg = x_directives (d_more d) /\
     cfg_options cfg = x_options (d_more d) /\ cfg_includes cfg = x_files (d_more d)) /\
    (forall n k, In (n, k) (cfg_aliases cfg) <->
       is_virtual_key k = true /\ exists v, d_macros d n = Some v /\ cfg_key_by_name (d_logical d) v = k) /\
    (forall n, mentioned d n -> (number_of n < 0)%Z) /\
    (forall n m, mentioned d n -> mentioned d m -> number_of n = number_of m -> n = m) /\
    forall other down, logical_down (d_logical d) down ->
      (forall b k, In b (d_blocks d) -> In k (d_logical d) -> snd (bl_attrs b) = true ->
         held_in (lk_both k) (snd (fst (bl_attrs b))) = false) ->
      let said := map (map (fun m => fold_left (fun m k => written_maps k m) (rev (d_logical d)) m))
                    (doc_meaning number_of (met_with other down) d) in
      said = ConfigSpec.meaning (met_with other down) (cfg_contexts cfg) \/
      said = [] :: ConfigSpec.meaning (met_with other down) (cfg_contexts cfg).
Proof. exact (file_meaning typer regex_ok read_file current_system). Qed.

(** A file is rejected when a command which an input is mapped to gets no output, *)
Theorem C70_unmapped : forall t ls d n, lines_of t ls -> file_says first_doc ls d ->
  d_unmapped d = false -> mentioned d n -> ~ mapped d n -> parse_config t = PErr.
Proof. exact (unmapped_rejected typer regex_ok read_file current_system). Qed.

(** and when a line, whatever follows it, gives a command a second output in its block,
    gives one to a command which nothing is mapped to, contains no mapping, or is an unknown
    directive or includes a file which cannot be read. *)
Theorem C70_wrong_line : forall t a l b d, lines_of t (a ++ l :: b) -> file_says first_doc a d ->
  d_done d = false -> (forall x, ~ continued l x) -> line_wrong typer d l \/ directive_wrong read_file d l -> parse_config t = PErr.
Proof. exact (wrong_line_rejected typer regex_ok read_file current_system). Qed.
End Properties.
Print Assumptions C70_file_partial.
Print Assumptions C70_unmapped.
Print Assumptions C70_wrong_line.

(** ** C71 A macro stands for its text *)

(** Every name of a macro outside of strings, commands, regular expressions and comments is
    replaced by what its text expands to; everything else stays as it is, and comments
    are dropped. *)
Theorem C71_expanded_partial : forall m t x, expands (find_macro m) 30 t x -> preprocess m t = POk x.
Proof. exact expanded. Qed.
(** The text of a macro is expanded when it is defined; calls of macros in it are kept. *)
Theorem C71_definition : forall m s t x, spaces s -> match t with c :: _ => is_space c = false | [] => True end ->
  parts (find_macro m) true 30 t x ->
  preprocess_range m (preprocess m) false (s ++ t) = POk x.
Proof. exact definition_expanded. Qed.
Print Assumptions C71_expanded_partial.
Print Assumptions C71_definition.

(** ** Cases *)

Lemma nodef_char : forall l, forallb (fun c => negb (Ascii.eqb c "=")) l = true -> no_definition l.
Proof.
  intros l H s n s' r -> _ _ _. apply forallb_forall with (x := "=") in H; [discriminate|]. rewrite !in_app_iff. cbn. auto.
Qed.
Lemma nodef_first : forall c l, is_space c = false -> is_ident_char c = false -> c <> "=" -> no_definition (c :: l).
Proof.
  intros c l Hs Hi He s n s' r E S0 I0 S1. destruct s as [|x s].
  - destruct n as [|x n]; [destruct s' as [|x s']|]; cbn in E; inversion E; subst.
    + easy.
    + inversion S1. congruence.
    + inversion I0. congruence.
  - cbn in E. inversion E; subst. inversion S0. congruence.
Qed.
Lemma parts_eq : forall m k n x t t', parts m k n x t -> t = t' -> parts m k n x t'.
Proof. now intros; subst. Qed.
Lemma text_expands : forall m n x t, match x with c :: _ => is_space c = false | [] => True end ->
  forallb is_ident_char x = false -> parts m false n x t -> expands m (S n) x t.
Proof.
  intros m n x t H W P. apply (x_text m n [] x t); [constructor|exact H| |exact P]. intros [_ F]. cbn [app] in F.
  assert (F' : forallb is_ident_char x = true) by (apply forallb_forall; now apply Forall_forall). congruence.
Qed.
Lemma word_of : forall n, forallb is_ident_char n = true -> n <> [] -> word n.
Proof. intros n H N0. split; [exact N0|]. apply Forall_forall. now apply forallb_forall. Qed.
Lemma none_in : forall (c : ascii) l, existsb (Ascii.eqb c) l = false -> ~ In c l.
Proof.
  intros c l H I0. assert (existsb (Ascii.eqb c) l = true); [|congruence].
  apply existsb_exists. exists c. split; [exact I0|apply Ascii.eqb_refl].
Qed.

(** A key as an input and as an output *)
Lemma reads_key : forall d n k, name_of (cfg_key_by_name (d_logical d)) n k -> k <> k_any -> k <> k_ContextActive ->
  k <> k_timeout ->
  reads_input generic_typer d n [Ev k Down 0; Ev k UpAsync 0].
Proof.
  intros d n k H Ka Kc Kt. exists false, (EKeys false [k] EEnd), [], n. split; [constructor|]. split; [reflexivity|].
  split. { rewrite <- (app_nil_r n). apply (w_keys _ [] false [k] n EEnd []); [constructor|now apply keys_one|intros _; exact Logic.I|constructor; constructor]. }
  cbn. split; [split; [discriminate|exact Logic.I]|].
  split. { exists (Ev k Down 0). cbn. repeat split; try (now left); easy || now destruct H. }
  split; [repeat constructor; easy|]. split; [discriminate|reflexivity].
Qed.
Lemma writes_key : forall d s n k, spaces s -> name_of (cfg_key_by_name (d_logical d)) n k -> k <> k_ContextActive ->
  reads_output generic_typer d (s ++ n) [Ev k Down 0] [].
Proof.
  intros d s n k S0 H Kc. exists (EKeys false [k] EEnd).
  split. { rewrite <- (app_nil_r n). apply (w_keys _ s false [k] n EEnd []); [exact S0|now apply keys_one|intros _; exact Logic.I|constructor; constructor]. }
  cbn. split; [split; [intros _; repeat constructor; easy|exact Logic.I]|]. split; [repeat constructor; easy|]. split; [|reflexivity].
  split; [reflexivity|]. intros [E|E]; [discriminate|]. exfalso. apply E. exists [Ev k Down 0], [Ev k Up 0].
  repeat split; repeat constructor; discriminate.
Qed.

(** The files which can be included *)
Definition case_files (name : text) : option (list text) :=
  if text_eqb name (T "more.conf") then Some [bom ++ T "X >> A"] else None.
Local Notation said := (file_says generic_typer parens_ok case_files (T "Linux")).
Local Notation line i := (line_says generic_typer parens_ok case_files (T "Linux") i).
Ltac blank := repeat constructor.
Ltac name := apply ExprProperties.name_word; [reflexivity|reflexivity|reflexivity|discriminate].
Ltac isword := apply word_of; [reflexivity|discriminate].
Ltac part := lazymatch goal with
  | |- parts _ _ _ [] _ => apply p_end
  | |- parts ?m ?k ?n (?c :: ?r) _ =>
      let b := eval vm_compute in (is_ident_char c) in
      lazymatch b with
      | true => let q := eval vm_compute in (read_ident (c :: r)) in
          lazymatch q with (?i, ?rest) =>
            change (c :: r) with (i ++ rest); eapply p_word;
            [isword|exact Logic.I || reflexivity|exact Logic.I || discriminate|
             first [apply x_name; [isword|reflexivity] | eapply x_macro; [isword|reflexivity|apply x_name; [isword|reflexivity]]]|part]
          end
      | false => apply p_char; [reflexivity|discriminate|discriminate|reflexivity|discriminate|part]
      end
  end.
Ltac plain_line := apply text_expands; [reflexivity|reflexivity|eapply parts_eq; [vm_compute; part|reflexivity]].
Ltac nodef := apply nodef_char; reflexivity.

(** A file with a logical key, a macro, a command, conditions and two stages *)
Definition case_lines : list text := map T [
  "Mod = ShiftLeft | ControlLeft"; "Key = B"; "A >> Key"; "Mod{X} >> go";
  "[title = /Fox/i, modifier='Virtual1']"; "go >> C"; "[stage]"; "B >> C" ]%string.
Definition mod_key : logical_key := LK (T "Mod") (first_logical + 4)%N ShiftLeft ControlLeft.
Definition fox : attrs :=
  (no_filter, Filter (T "/Fox/i") true false, no_filter, no_filter, no_filter, [Ev (first_virtual + 1)%N Down 0], false).
Definition key_input (k : key) : sequence := [Ev k Down 0; Ev k UpAsync 0].
Definition held_input (k : key) : sequence := Ev (first_logical + 4)%N Down 0 :: key_input k ++ [Ev (first_logical + 4)%N UpAsync 0].
Definition kA : key := 30%N. Definition kB : key := 48%N. Definition kC : key := 46%N. Definition kX : key := 45%N.
Definition case_blocks : list block := [
  Block no_conditions true true false
    [(key_input kA, Output [Ev kB Down 0]); (held_input kX, Command (T "go"))] [];
  Block fox true false false [] [(T "go", [Ev kC Down 0])];
  Block no_conditions true true false [(key_input kB, Output [Ev kC Down 0])] [] ].
Definition case_doc : doc :=
  Doc case_blocks [] (fun x => if text_eqb x (T "Key") then Some (T "B") else None)
      (d_logical first_doc ++ [mod_key]) false false false false no_extras.

Ltac words := apply ExprProperties.name_word; [reflexivity|reflexivity|vm_compute; reflexivity|discriminate].
Ltac in_text := cbn; repeat (let H := fresh in intros [H|H]; [discriminate|revert H]); now intros [].

Lemma front_of : forall i, (forall a b, i ++ [">"; ">"] = a ++ ">" :: ">" :: b -> b = []) ->
  forallb (fun c => negb (is_comment_char c)) i = true -> in_front i.
Proof.
  intros i H F. split; [exact H|]. intros n s c r -> _ _. rewrite !forallb_app in F. apply andb_prop in F as [_ F]. 
  apply andb_prop in F as [_ F]. cbn in F. apply andb_prop in F as [F _]. now destruct (is_comment_char c).
Qed.
Lemma front_only : forall i, existsb (Ascii.eqb ">") i = false -> forall a b, i ++ [">"; ">"] = a ++ ">" :: ">" :: b -> b = [].
Proof.
  induction i as [|c i IH]; intros H a b E.
  - destruct a as [|x a]; cbn in E; [now inversion E|]. inversion E. destruct a as [|y a]; [discriminate|]. inversion H2. now destruct a.
  - cbn [existsb] in H. apply orb_false_iff in H as [Hc H]. destruct a as [|x a]; cbn in E; inversion E; subst; [discriminate|]. eapply IH; eauto.
Qed.
Ltac front := apply front_of; [apply front_only; reflexivity|reflexivity].

Lemma key_output : forall d s n, spaces s -> word n -> forall m, command_name d m -> cfg_key_by_name (d_logical d) n <> k_none -> ~ only (s ++ n) m.
Proof.
  intros d s n S0 W m [Wm [K _]] Kn [a [b [c [Sa [Sb [C E]]]]]].
  assert (P : forall s s' n m r, spaces s -> spaces s' -> word n -> word m -> s ++ n = s' ++ m ++ r -> n = m ++ r).
  { clear. intros s. induction s as [|x s IH]; intros s' n m r S0 S1 Wn Wm E.
    - destruct s' as [|y s']; [exact E|]. exfalso. destruct n as [|z n]; [now destruct Wn|]. inversion E; subst.
      destruct Wn as [_ Wn]. destruct (ident_no_space _ (Forall_inv Wn)). pose proof (Forall_inv S1). cbn in *. congruence.
    - destruct s' as [|y s'].
      + exfalso. destruct m as [|z m]; [now destruct Wm|]. inversion E; subst.
        destruct Wm as [_ Wm]. destruct (ident_no_space _ (Forall_inv Wm)). pose proof (Forall_inv S0). cbn in *. congruence.
      + inversion E; subst. apply (IH s' n m r); auto; eapply Forall_inv_tail; eassumption. }
  apply P in E; auto. subst n. apply Kn.
  assert (b ++ c = []) as ->; [|rewrite app_nil_r; exact K].
  destruct W as [_ W]. apply Forall_app in W as [_ W]. destruct b as [|x b].
  - destruct c as [|x c]; [reflexivity|]. exfalso. destruct (ident_no_space _ (Forall_inv W)). cbn in C. congruence.
  - exfalso. destruct (ident_no_space _ (Forall_inv W)). pose proof (Forall_inv Sb). cbn in *. congruence.
Qed.

(** `key >> key` in the last block *)
Lemma key_line : forall inc d l i o ki ko bs b, no_definition l -> expands (d_macros d) 30 l (i ++ T " >> " ++ o) ->
  name_of (cfg_key_by_name (d_logical d)) i ki -> name_of (cfg_key_by_name (d_logical d)) o ko ->
  ki <> k_any -> ki <> k_ContextActive -> ki <> k_timeout -> ko <> k_ContextActive ->
  starts_with_lower_case i = false -> ~ mentioned d i -> d_blocks d = bs ++ [b] ->
  existsb (Ascii.eqb ">") i = false -> forallb (fun c => negb (is_comment_char c)) i = true ->
  match i with c :: _ => is_space c = false /\ is_comment_char c = false /\ c <> "@" /\ c <> "[" | [] => True end ->
  outside (fun c => c = line_end) (i ++ T " >> " ++ o) ->
  line inc d l (set_open false (set_blocks (bs ++ [add_map (key_input ki) (Output [Ev ko Down 0]) b]) d)).
Proof.
  intros inc d l i o ki ko bs b Nd X Hi Ho K1 K2 K3 K4 Lc M B Gt Cm Fc O.
  assert (Wi : word i) by (split; apply Hi). assert (Wo : word o) by (split; apply Ho).
  apply (says_mappings _ _ _ _ _ d l _ [] (i ++ T " >> " ++ o) _ Nd X); [reflexivity|constructor| |].
  - destruct i; [now destruct Wi|exact Fc].
  - replace (set_open false (set_blocks (bs ++ [add_map (key_input ki) (Output [Ev ko Down 0]) b]) d)) with
      (set_actions (d_actions (set_open false d) ++ []) (set_blocks (bs ++ [add_map (key_input ki) (Output [Ev ko Down 0]) b]) (set_open false d)))
      by (cbn; rewrite app_nil_r; now destruct d).
    apply say_last; [now destruct i|exact O|]. replace (i ++ T " >> " ++ o) with ((i ++ [" "]) ++ ">" :: ">" :: " " :: o) by (now rewrite <- app_assoc).
    apply says_mapping with (x := i).
    + exact B.
    + apply front_of.
      * apply front_only. rewrite existsb_app, Gt. reflexivity.
      * rewrite forallb_app, Cm. reflexivity.
    + left. split; [exact Wi|]. exists [" "]. split; [blank|reflexivity].
    + intros _. split; [exact M|exact Lc].
    + now apply reads_key.
    + intros m Hm. apply (key_output (set_open false d) [" "] o); [blank|exact Wo|exact Hm|]. destruct Ho as [_ [_ [E [Kn _]]]]. cbn. now rewrite E.
    + apply (writes_key _ [" "] o); [blank|exact Ho|exact K4].
Qed.
Lemma outside_plain : forall p l, (forall c, In c l -> ~ quotes c /\ ~ p c) -> outside p l.
Proof. intros p l. induction l as [|c l IH]; intros H; [constructor|]. apply outside_char; try apply H; try (now left). apply IH. intros. apply H. now right. Qed.
Ltac nolines := apply outside_plain; cbn; intros ? X; repeat (destruct X as [<-|X]; [split; [discriminate|discriminate]|]); now destruct X.

Lemma not_continued_of : forall l, existsb (Ascii.eqb "\") l = false -> forall x, ~ continued l x.
Proof. intros l H x [s [_ ->]]. rewrite existsb_app in H. cbn in H. now rewrite orb_true_r in H. Qed.
Ltac next := apply not_continued_of; reflexivity.

Definition case_step (n : nat) : doc :=
  let m := fun x => if text_eqb x (T "Key") then Some (T "B") else None in
  let ks := d_logical first_doc ++ [mod_key] in
  match n with
  | 0 => first_doc
  | 1 => set_logical ks first_doc
  | 2 => define (T "Key") (T "B") (set_logical ks first_doc)
  | 3 => Doc [Block no_conditions true true false [(key_input kA, Output [Ev kB Down 0])] []] [] m ks false false false false no_extras
  | 4 => Doc (firstn 1 case_blocks) [] m ks false false false false no_extras
  | 5 => Doc (firstn 1 case_blocks ++ [Block fox true false false [] []]) [] m ks false false true false no_extras
  | 6 => Doc (firstn 2 case_blocks) [] m ks false false false false no_extras
  | 7 => Doc (firstn 2 case_blocks ++ [Block no_conditions true true false [] []]) [] m ks false false false false no_extras
  | _ => case_doc
  end.

Ltac simple_goal := lazymatch goal with
  | |- spaces _ => repeat constructor
  | |- word _ => isword
  | |- expands _ _ _ _ => try (apply x_name; [isword|reflexivity])
  | |- key_of _ _ _ => split; [isword|split; [reflexivity|discriminate]]
  | |- apart _ => reflexivity || exact Logic.I
  | |- _ <> _ => discriminate
  | |- _ = _ => reflexivity
  | |- _ => idtac
  end.
Lemma case_1 : forall inc, line inc (case_step 0) (T "Mod = ShiftLeft | ControlLeft") (case_step 1).
Proof.
  intros inc.
  apply (says_logical _ _ _ _ _ (case_step 0) [] (T "Mod") [" "] [" "] (T "ShiftLeft") (T "ShiftLeft") (T " | ControlLeft") ShiftLeft [ControlLeft]); simple_goal.
  apply (either_more (case_step 0) [" "] [" "] (T "ControlLeft") (T "ControlLeft") ControlLeft [] []); simple_goal.
  apply (either_end _ [] []); [constructor|exact Logic.I].
Qed.
Lemma case_2 : forall inc, line inc (case_step 1) (T "Key = B") (case_step 2).
Proof.
  intros inc.
  apply (says_macro _ _ _ _ _ (case_step 1) [] (T "Key") [" "] [" "] (T "B") (T "B") (Block no_conditions true true false [] [])); simple_goal.
  - reflexivity.
  - right. intros i r s' E S0 _. destruct i as [|x i]; [destruct s' as [|y s']|]; inversion E; subst.
    + inversion S0. discriminate.
    + destruct i; [destruct s'; discriminate|discriminate].
  - intros i r E W _. exists i. destruct i as [|x [|y i]]; [now destruct W| |discriminate]. inversion E; subst. apply x_name; [isword|reflexivity].
  - apply (p_word _ true 30 (T "B") [] (T "B") []); simple_goal; [exact Logic.I|apply p_end].
  - now exists [].
Qed.
Lemma case_3 : forall inc, line inc (case_step 2) (T "A >> Key") (case_step 3).
Proof.
  intros inc.
  apply (key_line _ (case_step 2) _ (T "A") (T "B") kA kB [] (Block no_conditions true true false [] [])); try words; simple_goal; try nodef; try nolines.
  - plain_line.
  - intros [b [i [[<-|[]] []]]].
  - repeat split; discriminate.
Qed.

Lemma no_word : forall i, existsb (fun c => negb (is_ident_char c) && negb (is_space c)) i = true ->
  forall n s, i = n ++ s -> word n -> ~ spaces s.
Proof.
  intros i H n s -> [_ W] S0. apply existsb_exists in H as [c [I0 H]]. apply andb_prop in H as [H1 H2].
  apply in_app_or in I0. destruct I0 as [I0|I0].
  - rewrite (proj1 (Forall_forall _ _) W c I0) in H1. discriminate.
  - rewrite (proj1 (Forall_forall _ _) S0 c I0) in H2. discriminate.
Qed.
Lemma no_word_at_all : forall i, forallb is_ident_char i = false -> ~ word i.
Proof.
  intros i H [_ W]. assert (forallb is_ident_char i = true); [|congruence]. apply forallb_forall. now apply Forall_forall.
Qed.
Lemma case_4 : forall inc, line inc (case_step 3) (T "Mod{X} >> go") (case_step 4).
Proof.
  intros inc.
  apply (says_mappings _ _ _ _ _ (case_step 3) _ (T "Mod{X} >> go") [] (T "Mod{X} >> go")); simple_goal.
  - nodef.
  - plain_line.
  - repeat split; discriminate.
  - apply say_last; [discriminate|nolines|].
    apply (says_command _ (set_open false (case_step 3)) [] (Block no_conditions true true false [(key_input kA, Output [Ev kB Down 0])] [])
             (T "Mod{X} ") (T "Mod{X} ") (T " go") (T "go") (held_input kX)).
    + reflexivity.
    + front.
    + right. split; [reflexivity|]. now apply no_word.
    + intros W. exfalso. now apply no_word_at_all in W.
    + exists false, (EHold false [(first_logical + 4)%N] (EKeys false [kX] EEnd) EEnd), [], (T "Mod{X} ").
      split; [constructor|]. split; [reflexivity|]. split.
      { apply (w_hold _ [] false _ (T "Mod") [] _ (T "X") _ [" "]); [constructor|apply keys_one; words|constructor| |constructor; repeat constructor].
        apply (w_keys _ [] false _ (T "X") _ []); [constructor|apply keys_one; words|intros _; exact Logic.I|constructor; constructor]. }
      cbn zeta. split; [repeat split; discriminate|]. split; [exists (Ev kX Down 0); repeat split; vm_compute; auto; discriminate|].
      split; [repeat constructor; vm_compute; discriminate|]. split; [discriminate|reflexivity].
    + split; [isword|split; [reflexivity|discriminate]].
    + exists [" "], [], []. repeat split; repeat constructor.
Qed.
Lemma no_variables_of : forall m s, existsb (Ascii.eqb "$") s = false -> no_variable m s.
Proof.
  intros m s H a i r [->| ->]; rewrite existsb_app in H; cbn in H; now rewrite orb_true_r in H.
Qed.
Ltac no_variables := apply f_keep, no_variables_of; reflexivity.
Lemma case_5 : forall inc, line inc (case_step 4) (T "[title = /Fox/i, modifier='Virtual1']") (case_step 5).
Proof.
  intros inc.
  apply (says_header _ _ _ _ _ (case_step 4) _ (T "[title = /Fox/i, modifier='Virtual1']") [] [] (T "title = /Fox/i, modifier='Virtual1']") []
    [] (nth 0 case_blocks (Block no_conditions true true false [] [])) [ATitle (Filter (T "/Fox/i") true false); AModifier [Ev (first_virtual + 1)%N Down 0] false]
    fox true); simple_goal.
  - apply nodef_first; [reflexivity|reflexivity|discriminate].
  - apply text_expands; [reflexivity|reflexivity|]. eapply parts_eq.
    change (T "[title = /Fox/i, modifier='Virtual1']") with ("[" :: T "title" ++ " " :: "=" :: " " :: "/" :: T "Fox" ++ "/" :: T "i" ++ "," :: " " :: T "modifier" ++ "=" :: "'" :: T "Virtual1" ++ "'" :: ["]"]).
    apply p_char; [reflexivity|discriminate|discriminate|reflexivity|discriminate|].
    apply p_word with (t := T "title"); simple_goal; try discriminate.
    do 3 (apply p_char; [reflexivity|discriminate|discriminate|reflexivity|discriminate|]).
    apply p_regex; [repeat (apply pattern_char; [discriminate|discriminate|]); constructor|now left|no_variables|].
    do 2 (apply p_char; [reflexivity|discriminate|discriminate|reflexivity|discriminate|]).
    apply p_word with (t := T "modifier"); simple_goal; try discriminate.
    apply p_char; [reflexivity|discriminate|discriminate|reflexivity|discriminate|].
    apply p_string; [reflexivity|now apply none_in|no_variables|]. part.
    reflexivity.
  - apply (attributes_more _ _ (case_step 4) (T "title") [" "] false [" "] (T "/Fox/i") (T ", ") (T "modifier='Virtual1']")); simple_goal.
    + exists [], [" "]. repeat split; [constructor|repeat constructor|now right].
    + apply a_title with (s := T "/Fox/i").
      * apply (filter_value_regex _ (T "Fox") true). repeat (apply pattern_char; [discriminate|discriminate|]). constructor.
      * apply (filter_regex _ false (T "/Fox/i") (T "Fox") true); reflexivity.
    + apply (attributes_last _ _ (case_step 4) (T "modifier") [] false [] (T "'Virtual1'") []); simple_goal.
      apply (a_modifier _ _ (case_step 4) false (T "'Virtual1'") (T "Virtual1") (T "Virtual1") [Ev (first_virtual + 1)%N Down 0]); simple_goal.
      * apply (value_string "'" (T "Virtual1")); [reflexivity|]. now apply none_in.
      * apply (modifiers_cons _ [] false (T "Virtual1") (first_virtual + 1)%N []); simple_goal. apply (modifiers_nil _ []). constructor.
Qed.
Lemma case_6 : forall inc, line inc (case_step 5) (T "go >> C") (case_step 6).
Proof.
  intros inc.
  apply (says_mappings _ _ _ _ _ (case_step 5) _ (T "go >> C") [] (T "go >> C")); simple_goal.
  - nodef.
  - plain_line.
  - repeat split; discriminate.
  - apply say_last; [discriminate|nolines|].
    apply (says_output _ (set_open false (case_step 5)) (firstn 1 case_blocks) (Block fox true false false [] []) (T "go") [" "] (T " C") [Ev kC Down 0] []); simple_goal.
    + exists (nth 0 case_blocks (Block no_conditions true true false [] [])), (held_input kX). split; [now left|right; now left].
    + now intros [].
    + apply (writes_key _ [" "] (T "C")); [repeat constructor|words|discriminate].
Qed.
Lemma case_7 : forall inc, line inc (case_step 6) (T "[stage]") (case_step 7).
Proof.
  intros inc.
  apply (says_stage _ _ _ _ _ (case_step 6) _ (T "[stage]") [] [] [] []); simple_goal; [nodef|plain_line].
Qed.
Lemma case_8 : forall inc, line inc (case_step 7) (T "B >> C") (case_step 8).
Proof.
  intros inc.
  apply (key_line _ (case_step 7) _ (T "B") (T "C") kB kC (firstn 2 case_blocks) (Block no_conditions true true false [] [])); try words; simple_goal; try nodef; try nolines.
  - plain_line.
  - intros [b [i [H E]]]. cbn in H. repeat (destruct H as [<-|H]; [cbn in E; intuition discriminate|]). destruct H.
  - repeat split; discriminate.
Qed.
Ltac plain_lines := eexists; split; [reflexivity|]; split; [apply unmarked_other; reflexivity|]; split; [discriminate|];
  repeat (constructor; [apply none_in; reflexivity|]); constructor.
Example C70_case :
  lines_of (joined case_lines) case_lines /\ said 10 first_doc case_lines case_doc /\ complete case_doc /\
  length (d_actions case_doc) <= 256 /\ (N.of_nat (length (d_logical case_doc)) <= 3328)%N /\
  (forall b k, In b (d_blocks case_doc) -> In k (d_logical case_doc) -> snd (bl_attrs b) = true ->
     held_in (lk_both k) (snd (fst (bl_attrs b))) = false).
Proof.
  split; [|split; [|split; [|split; [|split]]]].
  - plain_lines.
  - eapply file_line; [reflexivity|next|exact (case_1 _)|]. eapply file_line; [reflexivity|next|exact (case_2 _)|].
    eapply file_line; [reflexivity|next|exact (case_3 _)|]. eapply file_line; [reflexivity|next|exact (case_4 _)|].
    eapply file_line; [reflexivity|next|exact (case_5 _)|]. eapply file_line; [reflexivity|next|exact (case_6 _)|].
    eapply file_line; [reflexivity|next|exact (case_7 _)|]. eapply file_line; [reflexivity|next|exact (case_8 _)|]. apply file_end.
  - right. intros n [b [i [H E]]]. cbn in H. assert (n = T "go") as ->.
    { destruct H as [<-|[<-|[<-|[]]]]; [destruct E as [E|[E|[]]]|destruct E|destruct E as [E|[]]]; (discriminate || now inversion E). }
    exists (nth 1 case_blocks (Block no_conditions true true false [] [])). split; [right; now left|now left].
  - vm_compute. repeat constructor.
  - vm_compute. discriminate.
  - intros b k H _. cbn in H. repeat (destruct H as [<-|H]; [discriminate|]). destruct H.
Qed.
(** While a Firefox window has the focus and Virtual1 is down, the command is C. *)
Example C70_case_meaning : forall number_of,
  doc_meaning number_of (fun _ => true) case_doc =
    [ [ ([(key_input kA, TOut [Ev kB Down 0]); (held_input kX, TCmd (number_of (T "go")))], []);
        ([], [Cmd [Ev kC Down 0] (number_of (T "go"))]) ];
      [ ([(key_input kB, TOut [Ev kC Down 0])], []) ] ].
Proof. reflexivity. Qed.

(** A command without an output *)
Example C70_unmapped_case :
  let ls := map T ["Mod = ShiftLeft | ControlLeft"; "Key = B"; "A >> Key"; "Mod{X} >> go"]%string in
  lines_of (joined ls) ls /\ said 10 first_doc ls (case_step 4) /\ d_unmapped (case_step 4) = false /\
  mentioned (case_step 4) (T "go") /\ ~ mapped (case_step 4) (T "go").
Proof.
  split; [|split; [|split; [|split]]].
  - plain_lines.
  - eapply file_line; [reflexivity|next|exact (case_1 _)|]. eapply file_line; [reflexivity|next|exact (case_2 _)|].
    eapply file_line; [reflexivity|next|exact (case_3 _)|]. eapply file_line; [reflexivity|next|exact (case_4 _)|]. apply file_end.
  - reflexivity.
  - exists (nth 0 case_blocks (Block no_conditions true true false [] [])), (held_input kX). split; [now left|right; now left].
  - intros [b [[<-|[]] []]].
Qed.
(** A second output for it, an unknown command, and a line with neither *)
Example C70_wrong_again : line_wrong generic_typer (case_step 6) (T "go >> C").
Proof.
  split; [nodef|]. exists (T "go >> C"), [], (T "go >> C"). split; [plain_line|]. split; [constructor|]. split; [reflexivity|].
  split; [repeat split; discriminate|]. split; [nolines|].
  apply (wrong_again _ _ (nth 1 case_blocks (Block no_conditions true true false [] [])) (T "go") [" "] (T " C") [Ev kC Down 0] []); simple_goal.
  - now exists (firstn 1 case_blocks).
  - exists (nth 0 case_blocks (Block no_conditions true true false [] [])), (held_input kX). split; [now left|right; now left].
  - now left.
  - apply (writes_key _ [" "] (T "C")); [repeat constructor|words|discriminate].
Qed.
Example C70_wrong_unused : line_wrong generic_typer (case_step 6) (T "other >> C").
Proof.
  split; [nodef|]. exists (T "other >> C"), [], (T "other >> C"). split; [plain_line|]. split; [constructor|]. split; [reflexivity|].
  split; [repeat split; discriminate|]. split; [nolines|].
  apply (wrong_unused _ _ (T "other") [" "] (T " C")); simple_goal.
  intros [b [i [H E]]]. cbn in H. repeat (destruct H as [<-|H]; [cbn in E; intuition discriminate|]). destruct H.
Qed.
Example C70_wrong_text : line_wrong generic_typer (case_step 6) (T "A > B").
Proof.
  split; [nodef|]. exists (T "A > B"), [], (T "A > B"). split; [plain_line|]. split; [constructor|]. split; [reflexivity|].
  split; [repeat split; discriminate|]. split; [nolines|]. apply wrong_text; [discriminate|].
  intros a b E. do 5 (destruct a as [|? a]; [discriminate|apply (f_equal (@tl ascii)) in E; cbn [tl app T list_ascii_of_string] in E]).
  now destruct a.
Qed.

(** A file with device filters, options, a compose key, an included file and a name for a
    virtual key *)
Definition more_lines : list text := map T ["@skip-device /Fox/i"; "@options verbose no-tray"; "@compose-key AltRight{Insert}";
  "@include 'more.conf'"; "Go = Virtual2"]%string.
Definition first_block : block := Block no_conditions true true false [] [].
Definition kInsert : key := Eval vm_compute in cfg_key_by_name [] (T "Insert").
Definition more_1 : doc := add_grab (Filter (T "/Fox/i") true true) false first_doc.
Definition more_2 : doc := add_options [T "verbose"; T "no-tray"] more_1.
Definition more_3 : doc := set_compose kInsert true more_2.
Definition more_4 : doc :=
  set_open false (set_blocks [add_map (key_input kX) (Output [Ev kA Down 0]) first_block] (add_included (T "more.conf") more_3)).
Definition more_doc : doc := define (T "Go") (T "Virtual2") more_4.
Lemma says_eq : forall i d l d1 d2, line i d l d1 -> d1 = d2 -> line i d l d2.
Proof. now intros; subst. Qed.
Lemma more_case_1 : forall i, line i first_doc (T "@skip-device /Fox/i") more_1.
Proof.
  intros i. eapply says_eq; [apply (says_device _ _ _ _ i first_doc _ (T "@skip-device /Fox/i") [] [" "] [] first_block true false (T "/Fox/i") (T "/Fox/i")
    (Filter (T "/Fox/i") true true)); simple_goal|].
  - nodef.
  - apply text_expands; [reflexivity|reflexivity|]. eapply parts_eq.
    change (T "@skip-device /Fox/i") with ("@" :: T "skip-device" ++ " " :: "/" :: T "Fox" ++ "/" :: T "i" ++ []).
    apply p_char; [reflexivity|discriminate|discriminate|reflexivity|discriminate|].
    apply p_word with (t := T "skip-device"); simple_goal; try discriminate.
    apply p_char; [reflexivity|discriminate|discriminate|reflexivity|discriminate|].
    apply p_regex; [repeat (apply pattern_char; [discriminate|discriminate|]); constructor|now left|no_variables|]. part.
    reflexivity.
  - apply (filter_value_regex _ (T "Fox") true). repeat (apply pattern_char; [discriminate|discriminate|]). constructor.
  - apply (filter_regex _ true (T "/Fox/i") (T "Fox") true); reflexivity.
  - now exists [].
  - reflexivity.
Qed.
Lemma more_case_2 : forall i, line i more_1 (T "@options verbose no-tray") more_2.
Proof.
  intros i. eapply says_eq; [apply (says_options _ _ _ _ i more_1 _ (T "@options verbose no-tray") [] [" "] (T "verbose no-tray") [T "verbose"; T "no-tray"] first_block); simple_goal|].
  - nodef.
  - plain_line.
  - apply (options_more (T "verbose")); [cbn; tauto|]. apply options_last. cbn. tauto.
  - now exists [].
  - reflexivity.
Qed.
Lemma more_case_3 : forall i, line i more_2 (T "@compose-key AltRight{Insert}") more_3.
Proof.
  intros i. eapply says_eq; [apply (says_compose _ _ _ _ i more_2 _ (T "@compose-key AltRight{Insert}") [] (T " AltRight{Insert}") kInsert true first_block); simple_goal|].
  - nodef.
  - plain_line.
  - discriminate.
  - exists false, (EHold false [AltRight] (EKeys false [kInsert] EEnd) EEnd), [" "], (T "AltRight{Insert}").
    split; [repeat constructor|]. split; [reflexivity|]. split.
    { apply (w_hold _ [] false _ (T "AltRight") [] _ (T "Insert") _ []); [constructor|apply keys_one; words|constructor| |constructor; repeat constructor].
      apply (w_keys _ [] false _ (T "Insert") _ []); [constructor|apply keys_one; words|intros _; exact Logic.I|constructor; constructor]. }
    cbn zeta. split; [repeat split; discriminate|]. split; [exists (Ev kInsert Down 0); repeat split; vm_compute; auto; discriminate|].
    split; [repeat constructor; vm_compute; discriminate|]. split; [discriminate|reflexivity].
  - now exists [].
  - reflexivity.
Qed.
Lemma more_case_4 : forall n, line (said (S n)) more_3 (T "@include 'more.conf'") more_4.
Proof.
  intros n. apply (says_include _ _ _ _ (said (S n)) more_3 _ (T "@include 'more.conf'") [] [" "] [] "'" (T "more.conf") first_block
    [bom ++ T "X >> A"] [T "X >> A"]); simple_goal.
  - nodef.
  - apply text_expands; [reflexivity|reflexivity|]. eapply parts_eq.
    change (T "@include 'more.conf'") with ("@" :: T "include" ++ " " :: "'" :: T "more.conf" ++ "'" :: []).
    apply p_char; [reflexivity|discriminate|discriminate|reflexivity|discriminate|].
    apply p_word with (t := T "include"); simple_goal; try discriminate.
    apply p_char; [reflexivity|discriminate|discriminate|reflexivity|discriminate|].
    apply p_string; [reflexivity|now apply none_in|no_variables|]. part.
    reflexivity.
  - reflexivity.
  - now apply none_in.
  - now exists [].
  - apply unmarked_mark.
  - eapply file_line; [reflexivity|next| |apply file_end].
    apply (key_line _ (add_included (T "more.conf") more_3) _ (T "X") (T "A") kX kA [] first_block); try words; simple_goal; try nodef; try nolines.
    + plain_line.
    + intros [b [j [[<-|[]] []]]].
    + repeat split; discriminate.
Qed.
Lemma more_case_5 : forall i, line i more_4 (T "Go = Virtual2") more_doc.
Proof.
  intros i. eapply says_eq; [apply (says_macro _ _ _ _ i more_4 [] (T "Go") [" "] [" "] (T "Virtual2") (T "Virtual2")
    (add_map (key_input kX) (Output [Ev kA Down 0]) first_block)); simple_goal|].
  - reflexivity.
  - right. intros w r s' E S0 _. assert (X : In "|" (T "Virtual2")) by (rewrite E, !in_app_iff; cbn; auto). cbn in X. intuition discriminate.
  - intros w r E W A. exists (T "Virtual2"). assert (r = []) as ->.
    { destruct r as [|c r]; [reflexivity|]. exfalso. assert (F : Forall (fun c => is_ident_char c = true) (T "Virtual2")) by repeat constructor.
      rewrite E in F. apply Forall_app in F as [_ F]. apply Forall_inv in F. cbn in A. congruence. }
    rewrite app_nil_r in E. rewrite <- E. apply x_name; [isword|reflexivity].
  - apply (p_word _ true 30 (T "Virtual2") [] (T "Virtual2") []); simple_goal; [exact Logic.I|apply p_end].
  - now exists [].
  - reflexivity.
Qed.
Example C70_more_case :
  lines_of (joined more_lines) more_lines /\ said 10 first_doc more_lines more_doc /\ complete more_doc /\
  d_more more_doc = Extras [(Filter (T "/Fox/i") true true, false)] [] [T "verbose"; T "no-tray"] [T "more.conf"] (Some (kInsert, true)) /\
  is_virtual_key (first_virtual + 2)%N = true /\
  exists v, d_macros more_doc (T "Go") = Some v /\ cfg_key_by_name (d_logical more_doc) v = (first_virtual + 2)%N.
Proof.
  split; [|split; [|split; [|split; [|split]]]].
  - plain_lines.
  - eapply file_line; [reflexivity|next|exact (more_case_1 _)|]. eapply file_line; [reflexivity|next|exact (more_case_2 _)|].
    eapply file_line; [reflexivity|next|exact (more_case_3 _)|]. eapply file_line; [reflexivity|next|exact (more_case_4 8)|].
    eapply file_line; [reflexivity|next|exact (more_case_5 _)|]. apply file_end.
  - right. intros n [b [i [H E]]]. destruct H as [<-|[]]. destruct E as [E|[]]. discriminate.
  - reflexivity.
  - reflexivity.
  - exists (T "Virtual2"). split; reflexivity.
Qed.
(** An unknown directive, and a file which does not exist *)
Example C70_wrong_name : directive_wrong case_files more_2 (T "@option verbose").
Proof.
  split; [nodef|]. exists (T "@option verbose"), [], (T "option verbose"), first_block. split; [plain_line|]. split; [constructor|].
  split; [reflexivity|]. split; [now exists []|]. split; [reflexivity|].
  apply (wrong_name _ (T "option") (T " verbose")); [repeat constructor|reflexivity|]. cbn. intuition discriminate.
Qed.
Example C70_wrong_file : directive_wrong case_files more_2 (T "@include 'less.conf'").
Proof.
  split; [nodef|]. exists (T "@include 'less.conf'"), [], (T "include 'less.conf'"), first_block. split.
  { apply text_expands; [reflexivity|reflexivity|]. eapply parts_eq.
    change (T "@include 'less.conf'") with ("@" :: T "include" ++ " " :: "'" :: T "less.conf" ++ "'" :: []).
    apply p_char; [reflexivity|discriminate|discriminate|reflexivity|discriminate|].
    apply p_word with (t := T "include"); simple_goal; try discriminate.
    apply p_char; [reflexivity|discriminate|discriminate|reflexivity|discriminate|].
    apply p_string; [reflexivity|now apply none_in|no_variables|]. part.
    reflexivity. }
  split; [constructor|]. split; [reflexivity|]. split; [now exists []|]. split; [reflexivity|].
  apply (wrong_file _ [" "] "'" (T "less.conf") []); [repeat constructor|reflexivity|now apply none_in|reflexivity].
Qed.

(** `AB` stands for `A{B}` where B is a macro itself; not in the string and the comment *)
Definition case_macros : list (text * text) := [(T "AB", T "A{B}"); (T "B", T "X")].
Example C71_case : expands (find_macro case_macros) 30 (T "AB 'AB' C # AB") (T "A{X} 'AB' C ").
Proof.
  apply text_expands; [reflexivity|reflexivity|]. eapply parts_eq.
  change (T "AB 'AB' C # AB") with (T "AB" ++ " " :: "'" :: T "AB" ++ "'" :: " " :: T "C" ++ " " :: "#" :: T " AB").
  apply p_word with (t := T "A{X}"); simple_goal; try discriminate.
  { eapply x_macro; [isword|reflexivity|]. apply text_expands; [reflexivity|reflexivity|].
    eapply parts_eq; [vm_compute; part|reflexivity]. }
  { apply p_char; [reflexivity|discriminate|discriminate|reflexivity|discriminate|].
    apply p_string; [reflexivity|now apply none_in|no_variables|].
    apply p_char; [reflexivity|discriminate|discriminate|reflexivity|discriminate|].
    apply p_word with (t := T "C"); simple_goal; try discriminate.
    apply p_char; [reflexivity|discriminate|discriminate|reflexivity|discriminate|]. now apply p_comment. }
  reflexivity.
Qed.
(** The call is kept, the name behind it is expanded. *)
Example C71_definition_case : parts (find_macro case_macros) true 30 (T "call[B, A] B") (T "call[B, A] X").
Proof.
  apply (p_call _ 30 (T "call") [T "B"; T " A"] (T " B") (T " X")); [isword|discriminate| | |].
  - repeat constructor; discriminate.
  - apply outside_plain. cbn. intros ? X. repeat (destruct X as [<-|X]; [split; [discriminate|tauto]|]). now destruct X.
  - eapply parts_eq; [vm_compute; part|reflexivity].
Qed.

(** A call of a macro: the arguments are expanded, put in place of the parameters, and the
    result is expanded again. *)
Lemma closed_of : forall t, forallb (fun c => negb (is_quote c)) t = true -> closed t.
Proof.
  intros t H. apply outside_plain. intros c X. apply forallb_forall with (x := c) in H; [|exact X].
  split; [|easy]. unfold quotes. now destruct (is_quote c).
Qed.
Lemma argument_of : forall t, forallb (fun c => negb (is_quote c || Ascii.eqb c "[" || Ascii.eqb c "]" || Ascii.eqb c ",")) t = true -> argument true t.
Proof.
  induction t as [|c t IH]; intros H; [constructor|]. cbn [forallb] in H. apply andb_prop in H as [H R].
  apply negb_true_iff, orb_false_iff in H as [H H4]. apply orb_false_iff in H as [H H3]. apply orb_false_iff in H as [H1 H2].
  apply piece_char; [unfold quotes; now destruct (is_quote c)| | | |now apply IH].
  - intros ->. discriminate.
  - intros ->. discriminate.
  - intros _ ->. discriminate.
Qed.
Lemma no_parameter_of : forall t, existsb (Ascii.eqb "$") t = false -> no_parameter t.
Proof. intros t H a r ->. rewrite existsb_app in H. cbn in H. now rewrite orb_true_r in H. Qed.
Lemma unquoted_plain : forall c r, is_quote c = false -> unquoted (c :: r) (c :: r).
Proof. intros c r H. apply unquoted_other. intros q s Q E. injection E as -> _. unfold quotes in Q. congruence. Qed.
Ltac trim := exists [], []; repeat split; [constructor].
Ltac trim1 := exists [" "], []; repeat split; [repeat constructor].
Ltac inst := repeat (apply Forall2_cons; [reflexivity || (cbn; now apply unquoted_plain)|]); apply Forall2_nil.
Definition call_macros : list (text * text) := [(T "B", T "X"); (T "twice", T "$0{$1} $0")].
Example C71_call_case : expands (find_macro call_macros) 30 (T "A twice[B, (C D)] B") (T "A X{(C D)} X X").
Proof.
  apply text_expands; [reflexivity|reflexivity|]. eapply parts_eq.
  change (T "A twice[B, (C D)] B") with (T "A" ++ " " :: T "twice" ++ arglist [T "B"; T " (C D)"] ++ T " B").
  apply p_word with (t := T "A"); simple_goal; try discriminate.
  apply p_char; [reflexivity|discriminate|discriminate|reflexivity|discriminate|].
  apply (p_apply _ 29 (T "twice") [T "B"; T " (C D)"] [T "X"; T "(C D)"] (T "X{(C D)} X") (T " B") (T "X{(C D)} X") (T " X")).
  - isword.
  - discriminate.
  - constructor; [now apply argument_of|constructor; [now apply argument_of|constructor]].
  - now apply closed_of.
  - discriminate.
  - apply all_more with (b := T "B"); [trim| |].
    { eapply x_macro; [isword|reflexivity|]. apply x_name; [isword|reflexivity]. }
    apply all_more with (b := T "(C D)"); [trim1|plain_line|]. apply all_none.
  - apply (body_macro _ (T "twice") [T "X"; T "(C D)"] [PArg (T "0"); PLit (T "{"); PArg (T "1"); PLit (T "} "); PArg (T "0")]
             [T "X"; T "{"; T "(C D)"; T "} "; T "X"]).
    + reflexivity.
    + cbn. intuition (discriminate || lia || (repeat constructor)).
    + reflexivity.
    + inst.
  - now apply closed_of.
  - now apply no_parameter_of.
  - plain_line.
  - eapply parts_eq; [|reflexivity]. cbn. apply p_char; [reflexivity|discriminate|discriminate|reflexivity|discriminate|].
    apply (p_word _ false 29 (T "B") [] (T "X") []); simple_goal; try exact Logic.I; [|apply p_end].
    eapply x_macro; [isword|reflexivity|]. apply x_name; [isword|reflexivity].
  - reflexivity.
Qed.

Lemma integer_of : forall t z, Forall (fun c => is_digit c = true) t -> t <> [] -> number t = z -> (z <=? int_max)%Z = true -> (0 <=? z)%Z = true -> integer t z.
Proof.
  intros t z F N0 V B C. apply Z.leb_le in B, C. split; [unfold fits; lia|]. exists t. split; [now split|]. now left.
Qed.
Lemma numeral_of : forall t z, Forall (fun c => is_digit c = true) t -> t <> [] -> number t = z -> (0 <=? z)%Z = true ->
  match t with c :: _ :: _ => c <> "0" | _ => True end -> numeral z t.
Proof.
  intros t z F N0 V C H. apply Z.leb_le in C. exists t. split; [now split|]. split; [exact H|]. now left.
Qed.
(** Builtin macros (README.md): the length of a string, arithmetic and repetition *)
Example C71_builtin_case : expands (find_macro []) 30 (T "repeat[Backspace, sub[length['cat'], 1]]") (T "Backspace Backspace ").
Proof.
  apply text_expands; [reflexivity|reflexivity|]. eapply parts_eq.
  change (T "repeat[Backspace, sub[length['cat'], 1]]") with (T "repeat" ++ arglist [T "Backspace"; T " sub[length['cat'], 1]"] ++ []).
  assert (As : argument true (T "'cat'")).
  { apply (piece_string true false "'" (T "cat") []); [reflexivity|now apply none_in|easy|constructor]. }
  assert (Al : argument true (T "length['cat']")).
  { do 6 (apply piece_char; [discriminate|discriminate|discriminate|discriminate|]). apply (piece_list true false (T "'cat'") []); [|constructor].
    apply (piece_string true true "'" (T "cat") []); [reflexivity|now apply none_in|easy|constructor]. }
  apply (p_apply _ 29 (T "repeat") [T "Backspace"; T " sub[length['cat'], 1]"] [T "Backspace"; T "2"] (T "Backspace Backspace ") [] (T "Backspace Backspace ") []).
  - isword.
  - discriminate.
  - constructor; [now apply argument_of|]. constructor; [|constructor].
    do 4 (apply piece_char; [discriminate|discriminate|discriminate|discriminate|]).
    apply (piece_list true false (T "length['cat'], 1") []); [|constructor].
    do 6 (apply piece_char; [discriminate|discriminate|discriminate|discriminate|]).
    apply (piece_list true true (T "'cat'") (T ", 1")); [|repeat constructor; discriminate].
    apply (piece_string true true "'" (T "cat") []); [reflexivity|now apply none_in|easy|constructor].
  - constructor.
  - exact Logic.I.
  - apply all_more with (b := T "Backspace"); [trim|apply x_name; [isword|reflexivity]|].
    apply all_more with (b := T "sub[length['cat'], 1]"); [trim1| |apply all_none].
    apply text_expands; [reflexivity|reflexivity|]. eapply parts_eq.
    change (T "sub[length['cat'], 1]") with (T "sub" ++ arglist [T "length['cat']"; T " 1"] ++ []).
    apply (p_apply _ 28 (T "sub") [T "length['cat']"; T " 1"] [T "3"; T "1"] (T "2") [] (T "2") []).
    + isword.
    + discriminate.
    + constructor; [exact Al|]. constructor; [now apply argument_of|constructor].
    + constructor.
    + exact Logic.I.
    + apply all_more with (b := T "length['cat']"); [trim| |].
      * apply text_expands; [reflexivity|reflexivity|]. eapply parts_eq.
        change (T "length['cat']") with (T "length" ++ arglist [T "'cat'"] ++ []).
        apply (p_apply _ 27 (T "length") [T "'cat'"] [T "'cat'"] (T "3") [] (T "3") []).
        -- isword.
        -- discriminate.
        -- now constructor.
        -- constructor.
        -- exact Logic.I.
        -- apply all_more with (b := T "'cat'"); [trim| |apply all_none].
           apply text_expands; [reflexivity|reflexivity|]. eapply parts_eq.
           ++ apply (p_string _ false 26 "'" (T "cat") (T "'cat'") [] []); [reflexivity|now apply none_in|no_variables|apply p_end].
           ++ reflexivity.
        -- apply body_builtin; [reflexivity|]. apply (b_length "'" (T "cat")); [reflexivity|reflexivity|].
           apply numeral_of; [repeat constructor|discriminate|reflexivity|reflexivity|exact Logic.I].
        -- now apply closed_of.
        -- now apply no_parameter_of.
        -- apply x_name; [isword|reflexivity].
        -- apply p_end.
        -- reflexivity.
      * apply all_more with (b := T "1"); [trim1|apply x_name; [isword|reflexivity]|apply all_none].
    + apply body_builtin; [reflexivity|]. apply (b_operation (T "sub") _ _ 3 1 2).
      * apply integer_of; [repeat constructor|discriminate|reflexivity|reflexivity|reflexivity].
      * apply integer_of; [repeat constructor|discriminate|reflexivity|reflexivity|reflexivity].
      * apply (op_sub 3 1).
      * unfold fits, int_max. lia.
      * apply numeral_of; [repeat constructor|discriminate|reflexivity|reflexivity|exact Logic.I].
    + now apply closed_of.
    + now apply no_parameter_of.
    + apply x_name; [isword|reflexivity].
    + apply p_end.
    + reflexivity.
  - apply body_builtin; [reflexivity|]. apply (b_repeat (T "Backspace") (T "2") 2).
    apply integer_of; [repeat constructor|discriminate|reflexivity|reflexivity|reflexivity].
  - now apply closed_of.
  - now apply no_parameter_of.
  - plain_line.
  - apply p_end.
  - reflexivity.
Qed.
(** `apply` writes one mapping for every argument. *)
Example C71_apply_case : expands (find_macro []) 30 (T "apply['F$0 >> Meta{$0}', 1, 2]") (T "F1 >> Meta{1}" ++ ascii_of_N 10 :: T "F2 >> Meta{2}").
Proof.
  apply text_expands; [reflexivity|reflexivity|]. eapply parts_eq.
  change (T "apply['F$0 >> Meta{$0}', 1, 2]") with (T "apply" ++ arglist [T "'F$0 >> Meta{$0}'"; T " 1"; T " 2"] ++ []).
  set (t := T "F1 >> Meta{1}" ++ ascii_of_N 10 :: T "F2 >> Meta{2}").
  apply (p_apply _ 29 (T "apply") [T "'F$0 >> Meta{$0}'"; T " 1"; T " 2"] [T "'F$0 >> Meta{$0}'"; T "1"; T "2"] t [] t []).
  - isword.
  - discriminate.
  - constructor; [|constructor; [now apply argument_of|constructor; [now apply argument_of|constructor]]].
    apply (piece_string true false "'" (T "F$0 >> Meta{$0}") []); [reflexivity|now apply none_in|easy|constructor].
  - constructor.
  - exact Logic.I.
  - apply all_more with (b := T "'F$0 >> Meta{$0}'"); [trim| |].
    + apply text_expands; [reflexivity|reflexivity|]. eapply parts_eq; [|reflexivity].
      apply (p_string _ false 28 "'" (T "F$0 >> Meta{$0}") (T "'F$0 >> Meta{$0}'") [] []); [reflexivity|now apply none_in|apply f_keep|apply p_end].
      intros a i r _ _ _. reflexivity.
    + apply all_more with (b := T "1"); [trim1|apply x_name; [isword|reflexivity]|].
      apply all_more with (b := T "2"); [trim1|apply x_name; [isword|reflexivity]|apply all_none].
  - apply body_builtin; [reflexivity|].
    apply (b_apply (T "'F$0 >> Meta{$0}'") (T "F$0 >> Meta{$0}") [PLit (T "F"); PArg (T "0"); PLit (T " >> Meta{"); PArg (T "0"); PLit (T "}")] true).
    + apply (unquoted_string "'" (T "F$0 >> Meta{$0}")). reflexivity.
    + reflexivity.
    + cbn. intuition (discriminate || lia || (repeat constructor)).
    + repeat constructor.
    + split; [|reflexivity]. intros _. now exists (T "'F$0 "), (T " Meta{$0}'").
    + cbn. lia.
    + reflexivity.
    + unfold t. apply (applied_more _ true 1 true [T "1"] [T "2"] [T "F"; T "1"; T " >> Meta{"; T "1"; T "}"] (ascii_of_N 10 :: T "F2 >> Meta{2}")); [reflexivity|inst|].
      apply (applied_more _ true 1 false [T "2"] [] [T "F"; T "2"; T " >> Meta{"; T "2"; T "}"] []); [reflexivity|inst|]. apply applied_end. cbn. lia.
  - now apply closed_of.
  - now apply no_parameter_of.
  - unfold t. plain_line.
  - apply p_end.
  - reflexivity.
Qed.
(** Macros in strings and commands *)
Example C71_variable_case : expands (find_macro [(T "name", T "'fox'")]) 30 (T "'a $name$x' $(run ${name}s)") (T "'a fox$x' $(run foxs)").
Proof.
  apply text_expands; [reflexivity|reflexivity|]. eapply parts_eq.
  assert (X : forall n, expands (find_macro [(T "name", T "'fox'")]) (S (S n)) (T "name") (T "'fox'")).
  { intros n. eapply x_macro; [isword|reflexivity|]. apply text_expands; [reflexivity|reflexivity|]. eapply parts_eq; [|reflexivity].
    apply (p_string _ false n "'" (T "fox") (T "'fox'") [] []); [reflexivity|now apply none_in|no_variables|apply p_end]. }
  assert (U : unquoted (T "'fox'") (T "fox")) by now apply (unquoted_string "'" (T "fox")).
  apply (p_string _ false 29 "'" (T "a $name$x") (T "'a fox$x'") (T " $(run ${name}s)")); [reflexivity|now apply none_in| |].
  - apply (f_value _ 29 (T "'a ") (T "name") (T "$x'") (T "'fox'") (T "fox") (T "$x'")); simple_goal; try easy; try (now apply none_in); try match goal with |- Forall _ _ => repeat constructor end.
    apply f_keep. intros a i r E F A. assert (L : i <> T "name").
      { intros ->. destruct E as [E|E]; destruct a as [|? [|? [|? [|? a]]]]; discriminate E. }
      cbn [find_macro]. destruct (text_eqb (T "name") i) eqn:G; [|reflexivity]. apply ClientProofs.text_eqb_eq in G. now subst.
  - apply p_char; [reflexivity|discriminate|discriminate|reflexivity|discriminate|].
    apply (p_command _ false 29 (T "run ${name}s") (T "$(run foxs)") [] []); [| |apply p_end].
    + apply outside_plain. cbn. intros ? Y. repeat (destruct Y as [<-|Y]; [split; discriminate|]). now destruct Y.
    + apply (f_other _ 29 [] [] (T "(run ${name}s)") (T "(run foxs)")); simple_goal; try easy.
      apply (f_braces _ 29 (T "(run ") (T "name") (T "s)") (T "'fox'") (T "fox") (T "s)")); simple_goal; try easy; try (now apply none_in); try match goal with |- Forall _ _ => repeat constructor end.
      no_variables.
  - reflexivity.
Qed.
