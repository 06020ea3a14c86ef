(** Lines and files are read as FileSpec.v says. *)
From Coq Require Import String Ascii List Arith NArith ZArith Bool Lia Sorted.
From Verif Require Import Base Key Text TextSpec TextProofs ParseSeq Stage Config ConfigSpec ClientProofs
  MacroSpec MacroTokens MacroCalls ExprSpec ExprProofs ExpandSpec ExpandProofs FileSpec FileStore FileHeader.
Import ListNotations.
Local Open Scope char_scope.
Local Open Scope nat_scope.

Lemma spaces_apart : forall s r, spaces s -> apart r -> apart (s ++ r).
Proof. intros s r S0 A. destruct S0 as [|c s C _]; [exact A|now apply space_not_ident]. Qed.
Lemma comment_apart : forall c, comment c -> apart c.
Proof.
  intros [|c r]; [easy|]. cbn. revert c. intros [[] [] [] [] [] [] [] []]; vm_compute; intuition discriminate.
Qed.
Lemma skip_comment : forall c, comment c -> skip_space c = [].
Proof. intros [|c r] H; [reflexivity|]. cbn in *. now rewrite H, (comment_no_space c H). Qed.

(** * Blocks *)

Lemma rep_blocks : forall d c bs xs sys o, represents d c -> Forall2 (block_rep (c_commands c)) bs xs ->
  (exists l b, bs = l ++ [b] /\ bl_sys b = sys) ->
  (forall n, mentioned (set_blocks bs d) n <-> mentioned d n) -> (forall n, mapped (set_blocks bs d) n <-> mapped d n) ->
  represents (set_open o (set_blocks bs d)) (c_set_after_empty o (c_set_sysmatch sys (c_set_contexts xs c))).
Proof.
  intros d c bs xs sys o R F [l [b [E Hs]]] Me Ma. destruct R as [A1 A2 A3 A4 A5 A6 A7 A8 A9 A10 A11 A12 A13 A14 A15 A16 A17].
  constructor; try assumption; try reflexivity.
  - intros y [l' E']. cbn in *. rewrite E in E'. apply app_inj_tail in E' as [_ <-]. now symmetry.
  - cbn. subst bs. now destruct l.
  - intros n. cbn. rewrite A15, <- Me. reflexivity.
  - intros x Hx. cbn in Hx. rewrite (A16 x Hx), <- Ma. reflexivity.
Qed.
Definition empty_block (conds : attrs) (sys stage : bool) : block := Block conds sys stage false [] [].
Lemma mentioned_blocks : forall d bs n, (forall i, (exists b, In b bs /\ In (i, Command n) (bl_maps b)) <-> (exists b, In b (d_blocks d) /\ In (i, Command n) (bl_maps b))) ->
  mentioned (set_blocks bs d) n <-> mentioned d n.
Proof.
  intros d bs n H. unfold mentioned. cbn [set_blocks d_blocks]. split; intros [b [i [Hb Hi]]].
  - destruct (proj1 (H i)) as [b' [A B]]; eauto.
  - destruct (proj2 (H i)) as [b' [A B]]; eauto.
Qed.
Lemma update_second : forall A (f : A -> A) l y x, update_at (length ((l ++ [y]) ++ [x]) - 2) f ((l ++ [y]) ++ [x]) = l ++ [f y; x].
Proof.
  intros A f l y x. rewrite !app_length. cbn [length]. replace (length l + 1 + 1 - 2) with (length l) by lia.
  rewrite <- app_assoc. cbn [app]. induction l as [|z l IH]; [reflexivity|]. cbn [length app update_at]. now rewrite IH.
Qed.
Lemma rep_share : forall cmds b x, block_rep cmds b x -> block_rep cmds (share b) (cc_set_fall true x).
Proof. intros cmds b x [A1 A2 A3 A4 A5 A6 A7]. constructor; assumption || reflexivity. Qed.
Lemma rep_empty : forall cmds x conds sys stage, state_of_ctx x = (conds, sys) -> rest_of x = ([], [], [], false, stage) ->
  block_rep cmds (empty_block conds sys stage) x.
Proof.
  intros cmds x conds sys stage E1 E2. unfold state_of_ctx, rest_of in *. injection E1 as E3 E4. injection E2 as F1 F2 F3 F4 F5.
  constructor; try assumption.
  - unfold mappings. rewrite F1. constructor.
  - rewrite F3. constructor.
  - rewrite F1. constructor.
Qed.

Section Lines.
Variable typer : option (key * bool) -> text -> list stroke.
Variable regex_ok : text -> bool -> bool.
Variable read_file : text -> option (list text).
Variable current_system : text.

(** parse_line with the result of parse_context *)
Definition header_end (c : cstate) : cstate :=
  match back (c_contexts c) with
  | Some x =>
      if cc_stage x then c_set_after_empty false c
      else
        let c := if c_after_empty c
                 then c_set_contexts (update_at (length (c_contexts c) - 2)
                                       (cc_set_fall true) (c_contexts c)) c
                 else c in
        c_set_after_empty true c
  | None => c
  end.
Definition with_context (x : cctx) (c : cstate) : cstate :=
  c_set_sysmatch (cc_sys x) (c_set_contexts (c_contexts c ++ [x]) c).

Lemma block_added : forall d c bs b x conds sys, represents d c -> d_blocks d = bs ++ [b] ->
  state_of_ctx x = (conds, sys) -> rest_of x = ([], [], [], false, false) ->
  represents (set_open true (set_blocks (bs ++ [if d_open d then share b else b; Block conds sys false false [] []]) d))
    (header_end (with_context x c)).
Proof.
  intros d c bs b x conds sys R E Es Er. pose proof (rep_empty (c_commands c) x conds sys false Es Er) as Hn.
  unfold state_of_ctx in Es. injection Es as _ Esys. assert (Est : cc_stage x = false) by (unfold rest_of in Er; now injection Er).
  pose proof (r_blocks _ _ R) as F. rewrite E in F. apply Forall2_last in F as [xs [y [Ec [F Hy]]]].
  set (b' := if d_open d then share b else b).
  set (y' := if d_open d then cc_set_fall true y else y).
  assert (Hm : header_end (with_context x c) = c_set_after_empty true (c_set_sysmatch sys (c_set_contexts (xs ++ [y'; x]) c))).
  { unfold header_end, with_context. cbn [c_set_sysmatch c_set_contexts c_contexts c_after_empty]. rewrite Ec, back_app, Est, (r_open _ _ R).
    unfold y'. destruct (d_open d); cbn zeta.
    - rewrite update_second. now rewrite Esys.
    - rewrite <- app_assoc. now rewrite Esys. }
  rewrite Hm. apply rep_blocks; [exact R| | | |].
  - apply Forall2_app; [exact F|]. constructor; [|constructor; [exact Hn|constructor]].
    unfold b', y'. destruct (d_open d); [now apply rep_share|exact Hy].
  - exists (bs ++ [b']), (Block conds sys false false [] []). split; [now rewrite <- app_assoc|reflexivity].
  - intros n. apply mentioned_blocks. intros i. rewrite E. split; intros [z [Hz Hi]].
    + apply in_app_iff in Hz as [Hz|[Hz|[Hz|[]]]].
      * exists z. rewrite in_app_iff. auto.
      * exists b. rewrite in_app_iff. subst z. unfold b' in Hi. destruct (d_open d); cbn in *; auto.
      * subst z. easy.
    + apply in_app_iff in Hz as [Hz|[Hz|[]]].
      * exists z. rewrite in_app_iff. auto.
      * subst z. exists b'. rewrite in_app_iff. unfold b'. destruct (d_open d); cbn; auto.
  - intros n. unfold mapped. cbn [set_blocks d_blocks]. rewrite E. split; intros [z [Hz Hi]].
    + apply in_app_iff in Hz as [Hz|[Hz|[Hz|[]]]].
      * exists z. rewrite in_app_iff. auto.
      * exists b. rewrite in_app_iff. subst z. unfold b' in Hi. destruct (d_open d); cbn in *; auto.
      * subst z. easy.
    + apply in_app_iff in Hz as [Hz|[Hz|[]]].
      * exists z. rewrite in_app_iff. auto.
      * subst z. exists b'. rewrite in_app_iff. unfold b'. destruct (d_open d); cbn; auto.
Qed.
Lemma stage_added : forall d c, represents d c ->
  represents (set_open false (set_blocks (d_blocks d ++ [Block no_conditions true true false [] []]) d))
    (header_end (with_context (cc_set_stage true (cc_set_sys true new_cctx)) c)).
Proof.
  intros d c R. unfold header_end, with_context. cbn [c_set_sysmatch c_set_contexts c_contexts]. rewrite back_app. cbn [cc_stage cc_set_stage].
  apply rep_blocks; [exact R| | | |].
  - apply Forall2_app; [exact (r_blocks _ _ R)|]. constructor; [|constructor]. now apply rep_empty.
  - exists (d_blocks d), (Block no_conditions true true false [] []). auto.
  - intros n. apply mentioned_blocks. intros i. split; intros [z [Hz Hi]].
    + apply in_app_iff in Hz as [Hz|[Hz|[]]]; [eauto|]. subst z. easy.
    + exists z. rewrite in_app_iff. auto.
  - intros n. unfold mapped. cbn [set_blocks d_blocks]. split; intros [z [Hz Hi]].
    + apply in_app_iff in Hz as [Hz|[Hz|[]]]; [eauto|]. subst z. easy.
    + exists z. rewrite in_app_iff. auto.
Qed.

Lemma skip_self : forall p r, skip p (p ++ r) = Some r.
Proof. intros p r. induction p as [|c p IH]; [reflexivity|]. cbn. now rewrite Ascii.eqb_refl. Qed.

Lemma context_default : forall c s1 s2 s3, spaces s1 -> spaces s2 -> spaces s3 ->
  parse_context regex_ok current_system (s1 ++ T "default" ++ s2 ++ "]" :: s3) c = POk (with_context (cc_set_sys true new_cctx) c).
Proof.
  intros c s1 s2 s3 S1 S2 S3. unfold parse_context. cbn zeta. rewrite skip_solid; [|exact S1|split; reflexivity].
  rewrite skip_self, skip_solid; [|exact S2|split; reflexivity]. change (skip (T "]") ("]" :: s3)) with (Some s3). cbn [pbind].
  now rewrite skip_only_spaces.
Qed.
Lemma context_stage : forall c s1 s2 s3, spaces s1 -> spaces s2 -> spaces s3 ->
  parse_context regex_ok current_system (s1 ++ T "stage" ++ s2 ++ "]" :: s3) c =
  POk (with_context (cc_set_stage true (cc_set_sys true new_cctx)) c).
Proof.
  intros c s1 s2 s3 S1 S2 S3. unfold parse_context. cbn zeta. rewrite skip_solid; [|exact S1|split; reflexivity].
  change (skip (T "default") (T "stage" ++ s2 ++ "]" :: s3)) with (@None text).
  rewrite skip_self, skip_solid; [|exact S2|split; reflexivity]. change (skip (T "]") ("]" :: s3)) with (Some s3). cbn [pbind].
  now rewrite skip_only_spaces.
Qed.
Lemma attribute_names : forall d t l, attributes regex_ok current_system d t l ->
  forall r, skip (T "default") (t ++ r) = None /\ skip (T "stage") (t ++ r) = None.
Proof.
  intros d t l H r. assert (G : forall inv n v a x, attribute_says regex_ok current_system d inv n v a ->
    (match x with c :: _ => is_ident_char c = false | [] => False end) -> skip (T "default") (n ++ x) = None /\ skip (T "stage") (n ++ x) = None).
  { intros inv n v a x Ha _. destruct Ha; try (split; reflexivity). destruct H0 as [->| ->]; split; reflexivity. }
  destruct H as [n s inv s' v s'' a S0 S1 S2 Ha|n s inv s' v sep q a l S0 S1 Sep Ha A H]; rewrite <- app_assoc; eapply G; eauto.
  - destruct S0 as [|y s Y _]; [destruct inv; reflexivity|now apply space_not_ident].
  - destruct S0 as [|y s Y _]; [destruct inv; reflexivity|now apply space_not_ident].
Qed.
Lemma context_header : forall d c s1 t l s3, represents d c -> spaces s1 -> attributes regex_ok current_system d t l -> spaces s3 ->
  exists x, parse_context regex_ok current_system (s1 ++ t ++ s3) c = POk (with_context x c) /\
    state_of_ctx x = fold_left with_attribute l (no_conditions, true) /\ rest_of x = ([], [], [], false, false).
Proof.
  intros d c s1 t l s3 R S1 H S3. unfold parse_context. cbn zeta.
  destruct (attributes_solid regex_ok current_system d t l H) as [So _].
  rewrite skip_solid; [|exact S1|destruct t; [easy|exact So]].
  destruct (attribute_names d t l H s3) as [E1 E2]. rewrite E1, E2.
  destruct (attributes_read regex_ok current_system d c t l R H (S (length (t ++ s3))) (cc_set_sys true new_cctx) s3) as [x [E3 [E4 E5]]].
  { rewrite app_length. lia. }
  rewrite E3. cbn [pbind]. rewrite skip_only_spaces by exact S3. exists x. split; [reflexivity|]. split; [exact E4|exact E5].
Qed.

(** * Logical keys *)

Lemma key_more : forall l extra n k, cfg_key_by_name l n = k -> k <> k_none -> cfg_key_by_name (l ++ extra) n = k.
Proof.
  intros l extra n k H N0. unfold cfg_key_by_name in *. destruct (get_key_by_name n) as [|p]; [|exact H].
  destruct (find_logical n l) as [x|] eqn:E; [|congruence]. unfold find_logical in *.
  assert (G : find (fun k0 => text_eqb (lk_name k0) n) (l ++ extra) = Some x).
  { revert E. clear. induction l as [|y l IH]; [discriminate|]. cbn [find app]. destruct (text_eqb (lk_name y) n); auto. }
  now rewrite G.
Qed.
Lemma either_apart : forall d r l, either d r l -> apart r.
Proof.
  intros d r l H. destruct H as [s c S0 C|s s' i n k r l S0 S1 W A X K H]; apply spaces_apart; auto; [now apply comment_apart|reflexivity].
Qed.
Lemma logical_read : forall d r l, either d r l -> forall c0 name s' i n k left extra c f, represents d c0 -> spaces s' -> word i ->
  expands (d_macros d) 30 i n -> key_of d n k ->
  c_macros c = c_macros c0 -> c_logical c = d_logical d ++ extra -> length (s' ++ i ++ r) < f ->
  logical_loop f name left (s' ++ i ++ r) c = POk (c_set_logical (chain name left (k :: l) (c_logical c)) c).
Proof.
  intros d r l H. induction H as [s cm S0 C|s s2 j m k2 r l S0 S2 Wj A Xj Kj H IH];
    intros c0 name s' i n k left extra c f R S1 W X [Wn [K Nk]] Em El L.
  - destruct f as [|f]; [lia|]. cbn [logical_loop]. rewrite skip_solid; [|exact S1|now apply word_solid].
    rewrite read_word; [|exact W|apply spaces_apart; [exact S0|now apply comment_apart]].
    rewrite Em, (rep_expanded d c0 i n R X). cbn [pbind]. rewrite El, (key_more _ extra _ _ K Nk). apply N.eqb_neq in Nk. unfold k_none in Nk. rewrite Nk.
    rewrite skip_spaces by exact S0. rewrite (skip_comment cm C). change (skip (T "|") []) with (@None text). cbn iota.
    unfold add_logical_key. cbn [skip_space chain]. now rewrite El.
  - destruct f as [|f]; [lia|]. cbn [logical_loop]. rewrite skip_solid; [|exact S1|now apply word_solid].
    rewrite read_word; [|exact W|apply spaces_apart; [exact S0|reflexivity]].
    rewrite Em, (rep_expanded d c0 i n R X). cbn [pbind]. rewrite El, (key_more _ extra _ _ K Nk). apply N.eqb_neq in Nk. unfold k_none in Nk. rewrite Nk.
    rewrite skip_solid; [|exact S0|split; reflexivity].
    change (skip (T "|") ("|" :: s2 ++ j ++ r)) with (Some (s2 ++ j ++ r)). cbn iota.
    unfold add_logical_key. cbn iota beta.
    rewrite (IH c0 name s2 j m k2 _ (extra ++ [LK (T "$") ((first_logical + N.of_nat (length (c_logical c))) mod 65536)%N left k])
               _ f R S2 Wj Xj Kj).
    + cbn [c_set_logical c_logical]. cbn [chain]. rewrite El. reflexivity.
    + exact Em.
    + cbn [c_set_logical c_logical]. now rewrite El, app_assoc.
    + rewrite !app_length in *. cbn [length] in L. rewrite !app_length in L. destruct W as [W _]. destruct i; [easy|]. cbn [length] in L. lia.
Qed.
Lemma rep_logical : forall d c ks, represents d c -> represents (set_logical ks d) (c_set_logical ks c).
Proof. intros d c ks [A1 A2 A3 A4 A5 A6 A7 A8 A9 A10 A11 A12 A13 A14 A15 A16 A17]. constructor; assumption || reflexivity. Qed.
Lemma logical_defined : forall d c n i x r left l, represents d c -> cfg_key_by_name (d_logical d) n = k_none -> word i ->
  expands (d_macros d) 30 i x -> key_of d x left -> l <> [] -> either d r l ->
  exists c', parse_logical_key_definition n (i ++ r) c = POk (Some c') /\ represents (set_logical (chain n left l (d_logical d)) d) c'.
Proof.
  intros d c n i x r left l R Kn Wi X [Wx [Kl Nl]] Nn H. unfold parse_logical_key_definition. rewrite (r_logical _ _ R), Kn.
  cbn [N.eqb negb k_none]. rewrite read_word; [|exact Wi|eapply either_apart; eauto].
  rewrite (rep_expanded d c i x R X). cbn [pbind]. rewrite Kl. destruct H as [s cm S0 C|s s2 j m k2 r l S0 S2 Wj A Xj Kj H]; [easy|].
  rewrite skip_solid; [|exact S0|split; reflexivity]. change (skip (T "|") ("|" :: s2 ++ j ++ r)) with (Some (s2 ++ j ++ r)). cbn iota.
  pose proof Nl as Nl'. apply N.eqb_neq in Nl'. unfold k_none in Nl'. rewrite Nl'.
  rewrite (logical_read d r l H c n s2 j m k2 left [] c _ R S2 Wj Xj Kj eq_refl) by (rewrite ?app_nil_r; try apply (r_logical _ _ R); lia).
  cbn [pbind]. eexists. split; [reflexivity|]. rewrite (r_logical _ _ R). now apply rep_logical.
Qed.

(** * Macros *)

Lemma find_set : forall m n v x, find_macro (set_macro m n v) x = if text_eqb x n then Some v else find_macro m x.
Proof.
  intros m n v x. induction m as [|[k w] m IH]; cbn [set_macro find_macro].
  - destruct (text_eqb n x) eqn:E, (text_eqb x n) eqn:E'; auto.
    + apply text_eqb_eq in E. apply text_eqb_neq in E'. congruence.
    + apply text_eqb_neq in E. apply text_eqb_eq in E'. congruence.
  - destruct (text_eqb k n) eqn:Ek; [|destruct (text_ltb n k)]; cbn [find_macro].
    + apply text_eqb_eq in Ek. subst k. destruct (text_eqb n x) eqn:E, (text_eqb x n) eqn:E'; auto.
      * apply text_eqb_eq in E. apply text_eqb_neq in E'. congruence.
      * apply text_eqb_neq in E. apply text_eqb_eq in E'. congruence.
    + destruct (text_eqb n x) eqn:E, (text_eqb x n) eqn:E'; auto.
      * apply text_eqb_eq in E. apply text_eqb_neq in E'. congruence.
      * apply text_eqb_neq in E. apply text_eqb_eq in E'. congruence.
    + rewrite IH. destruct (text_eqb k x) eqn:E; [|reflexivity]. destruct (text_eqb x n) eqn:E'; [|reflexivity].
      apply text_eqb_eq in E. apply text_eqb_eq in E'. apply text_eqb_neq in Ek. congruence.
Qed.
Lemma code_eq : forall a b, code a = code b -> a = b.
Proof. intros a b H. unfold code in H. rewrite <- (ascii_N_embedding a), <- (ascii_N_embedding b). now f_equal. Qed.
Lemma ltb_trans : forall a b c, text_ltb a b = true -> text_ltb b c = true -> text_ltb a c = true.
Proof.
  induction a as [|x a IH]; intros [|y b] [|z c] H1 H2; try easy. cbn [text_ltb] in *.
  apply orb_true_iff in H1. apply orb_true_iff in H2. apply orb_true_iff.
  rewrite !andb_true_iff, !N.ltb_lt, !N.eqb_eq in *.
  destruct H1 as [H1|[E1 H1]], H2 as [H2|[E2 H2]]; try (left; lia). right. split; [lia|]. eapply IH; eauto.
Qed.
Lemma ltb_total : forall a b, text_ltb a b = false -> a <> b -> text_ltb b a = true.
Proof.
  induction a as [|x a IH]; intros [|y b] H N0; try easy. cbn [text_ltb] in *.
  apply orb_false_iff in H as [H1 H2]. apply N.ltb_ge in H1. apply orb_true_iff. rewrite N.ltb_lt, andb_true_iff, N.eqb_eq.
  destruct (N.eq_dec (code y) (code x)) as [Ec|Ec]; [|left; lia]. right. split; [exact Ec|].
  rewrite Ec, N.eqb_refl in H2. apply IH; [exact H2|]. intros ->. apply N0. f_equal. now apply code_eq.
Qed.
Lemma set_sorted : forall m n v, StronglySorted (fun a b => text_ltb a b = true) (map fst m) ->
  StronglySorted (fun a b => text_ltb a b = true) (map fst (set_macro m n v)).
Proof.
  intros m n v. induction m as [|[k w] m IH]; intros H; cbn [set_macro]; [repeat constructor|].
  destruct (text_eqb k n) eqn:E; [apply text_eqb_eq in E; now subst|].
  destruct (text_ltb n k) eqn:L; cbn [map fst] in *.
  - constructor; [exact H|]. apply StronglySorted_inv in H as [_ F]. constructor; [exact L|].
    eapply Forall_impl; [|exact F]. intros a. now apply ltb_trans.
  - apply StronglySorted_inv in H as [H F]. constructor; [now apply IH|]. apply Forall_forall. intros x Hx.
    assert (G : forall m, In x (map fst (set_macro m n v)) -> x = n \/ In x (map fst m)).
    { clear. induction m as [|[k w] m IH]; cbn [set_macro map fst In]; [intuition congruence|].
      destruct (text_eqb k n); [cbn; intuition congruence|]. destruct (text_ltb n k); cbn [map fst In]; intuition congruence. }
    destruct (G m Hx) as [->|A].
    + apply ltb_total; [exact L|]. intros <-. now rewrite text_eqb_refl in E.
    + now apply (proj1 (Forall_forall _ _) F).
Qed.
Lemma rep_define : forall d c n v, represents d c -> represents (define n v d) (c_set_macros (set_macro (c_macros c) n v) c).
Proof.
  intros d c n v [A1 A2 A3 A4 A5 A6 A7 A8 A9 A10 A11 A12 A13 A14 A15 A16 A17]. constructor; try assumption.
  - intros x. cbn. rewrite find_set, A3. reflexivity.
  - cbn. now apply set_sorted.
Qed.
Lemma no_bar : forall x, (forall i r s', x = i ++ s' ++ "|" :: r -> spaces s' -> Forall (fun c => is_ident_char c = true) i -> False) ->
  forall i q, read_ident (skip_space x) = (i, q) -> match x with c :: _ => is_space c = false | [] => True end ->
  skip (T "|") (skip_space q) = None.
Proof.
  intros x H i q E Fx. apply read_ident_parts in E as [E [F _]]. destruct (skip (T "|") (skip_space q)) as [r|] eqn:Sk; [|reflexivity]. exfalso.
  apply skip_app in Sk. change (T "|" ++ r) with ("|" :: r) in Sk.
  destruct (skip_space_split q) as [s [[S0 Eq]|[s' [cm [_ [_ [_ [_ E']]]]]]]]; [|rewrite E' in Sk; discriminate].
  rewrite Sk in Eq.
  assert (Ex : skip_space x = x \/ skip_space x = []).
  { destruct x as [|c x]; [auto|]. cbn [skip_space]. rewrite Fx. destruct (is_comment_char c); auto. }
  destruct Ex as [Ex|Ex].
  - apply (H i r s); auto. now rewrite <- Ex, E, Eq.
  - rewrite Ex in E. subst q. symmetry in E. apply app_eq_nil in E as [_ E]. apply app_eq_nil in E as [_ E]. discriminate.
Qed.
Lemma macro_defined : forall d c n x v b, represents d c -> word n -> match x with c :: _ => is_space c = false | [] => True end ->
  (cfg_key_by_name (d_logical d) n <> k_none \/
     (forall i r s', x = i ++ s' ++ "|" :: r -> spaces s' -> Forall (fun c => is_ident_char c = true) i -> False)) ->
  (forall i r, x = i ++ r -> word i -> apart r -> exists y, expands (d_macros d) 30 i y) ->
  parts (d_macros d) true 30 x v -> last_block d b ->
  parse_logical_key_definition n (skip_space x) c = POk None /\
  exists c', parse_macro n (skip_space x) c = POk c' /\
    represents (if bl_sys b then define n v d else match d_macros d n with None => define n v d | Some _ => d end) c'.
Proof.
  intros d c n x v b R W Fx Hb He P Lb. split.
  - unfold parse_logical_key_definition. rewrite (r_logical _ _ R).
    destruct (cfg_key_by_name (d_logical d) n =? 0)%N eqn:K; [|reflexivity]. cbn [negb]. apply N.eqb_eq in K.
    destruct Hb as [Hb|Hb]; [easy|]. destruct (read_ident (skip_space x)) as [i q] eqn:Er.
    rewrite (no_bar x Hb i q Er Fx). apply read_ident_parts in Er as [E [F A]].
    assert (Ex : skip_space x = x \/ skip_space x = []).
    { destruct x as [|y x]; [auto|]. cbn [skip_space]. rewrite Fx. destruct (is_comment_char y); auto. }
    destruct i as [|y i]; [reflexivity|].
    destruct Ex as [Ex|Ex]; [|rewrite Ex in E; discriminate].
    destruct (He (y :: i) q) as [z X]; [now rewrite <- Ex|split; [discriminate|exact F]|exact A|].
    rewrite (rep_expanded d c _ z R X). reflexivity.
  - unfold parse_macro.
    assert (E : preprocess_range (c_macros c) (preprocess (c_macros c)) false (skip_space x) = POk v).
    { pose proof (proj1 (proj2 (expansion_ext (d_macros d) (find_macro (c_macros c)) (fun n => eq_sym (r_macros _ _ R n)))) _ _ _ _ P) as P'.
      pose proof (definition_expanded (c_macros c) [] x v (Forall_nil _) Fx P') as D. cbn [app] in D.
      destruct x as [|y x]; [exact D|]. cbn [skip_space]. rewrite Fx. destruct (is_comment_char y) eqn:Cy; [|exact D].
      unfold preprocess_range in *. cbn [skip_space] in *. rewrite Fx, Cy in D. exact D. }
    rewrite E. cbn [pbind]. rewrite (r_sys _ _ R b Lb), (r_macros _ _ R n). destruct (bl_sys b); cbn [orb].
    + eexists. split; [reflexivity|]. now apply rep_define.
    + destruct (d_macros d n); (eexists; split; [reflexivity|]); [exact R|now apply rep_define].
Qed.

(** * Directives *)

Lemma option_parsed : forall n v t s x, option_says n v t s -> word n -> t = s ++ "@" :: x ->
  exists q, read_ident x = (n, q) /\ exists q', read_optional_bool (skip_space q) = POk (v, q') /\ skip_space q' = [].
Proof.
  intros n v t s x H W E. destruct H as [n t s s' S0 ->|n v t s s1 s2 S1 N1 S2 ->].
  - apply app_inv_head in E. injection E as <-. rewrite read_word; [|exact W|rewrite <- (app_nil_r s'); now apply spaces_apart].
    exists s'. split; [reflexivity|]. rewrite skip_only_spaces by exact S0. exists []. split; reflexivity.
  - apply app_inv_head in E. injection E as <-. rewrite read_word; [|exact W|destruct S1 as [|c s1 C _]; [easy|now apply space_not_ident]].
    eexists. split; [reflexivity|]. rewrite skip_solid; [|exact S1|destruct v; split; reflexivity].
    exists s2. split; [|now apply skip_only_spaces]. unfold read_optional_bool.
    rewrite read_word; [|destruct v; (split; [discriminate|repeat constructor])|rewrite <- (app_nil_r s2); now apply spaces_apart].
    now destruct v.
Qed.
Lemma rep_unmapped : forall d c v, represents d c -> represents (set_unmapped v d) (c_set_unmapped v c).
Proof. intros d c v [A1 A2 A3 A4 A5 A6 A7 A8 A9 A10 A11 A12 A13 A14 A15 A16 A17]. constructor; assumption || reflexivity. Qed.
Lemma rep_lower : forall d c v, represents d c -> represents (set_lower v d) (c_set_lowercase v c).
Proof. intros d c v [A1 A2 A3 A4 A5 A6 A7 A8 A9 A10 A11 A12 A13 A14 A15 A16 A17]. constructor; assumption || reflexivity. Qed.
Lemma rep_done : forall d c, represents d c -> represents (set_done true d) (c_set_done true c).
Proof. intros d c [A1 A2 A3 A4 A5 A6 A7 A8 A9 A10 A11 A12 A13 A14 A15 A16 A17]. constructor; assumption || reflexivity. Qed.
Lemma rep_open : forall d c v, represents d c -> represents (set_open v d) (c_set_after_empty v c).
Proof. intros d c v [A1 A2 A3 A4 A5 A6 A7 A8 A9 A10 A11 A12 A13 A14 A15 A16 A17]. constructor; assumption || reflexivity. Qed.

Lemma rep_grab : forall d c f by_id, represents d c -> represents (add_grab f by_id d) (c_set_grab (c_grab c ++ [(f, by_id)]) c).
Proof.
  intros d c f v [A1 A2 A3 A4 A5 A6 A7 A8 A9 A10 A11 A12 A13 A14 A15 A16 A17]. constructor; try assumption. cbn. now rewrite <- A10.
Qed.
Lemma rep_directive : forall d c n, represents d c -> represents (add_directive n d) (c_set_directives (c_directives c ++ [n]) c).
Proof.
  intros d c n [A1 A2 A3 A4 A5 A6 A7 A8 A9 A10 A11 A12 A13 A14 A15 A16 A17]. constructor; try assumption. cbn. now rewrite <- A10.
Qed.
Lemma rep_options : forall d c l, represents d c -> represents (add_options l d) (c_set_options (c_options c ++ l) c).
Proof.
  intros d c n [A1 A2 A3 A4 A5 A6 A7 A8 A9 A10 A11 A12 A13 A14 A15 A16 A17]. constructor; try assumption. cbn. now rewrite <- A10.
Qed.
Lemma rep_include : forall d c n, represents d c -> represents (add_included n d) (c_set_includes (c_includes c ++ [n]) c).
Proof.
  intros d c n [A1 A2 A3 A4 A5 A6 A7 A8 A9 A10 A11 A12 A13 A14 A15 A16 A17]. constructor; try assumption. cbn. now rewrite <- A10.
Qed.
Lemma rep_set_compose : forall d c k b, represents d c -> represents (set_compose k b d) (c_set_compose (Some (k, b)) c).
Proof.
  intros d c k b [A1 A2 A3 A4 A5 A6 A7 A8 A9 A10 A11 A12 A13 A14 A15 A16 A17]. constructor; try assumption. cbn. now rewrite <- A10.
Qed.
Lemma quote_solid : forall q r, quotes q -> solid (q :: r).
Proof. intros q r H. unfold quotes in H. revert H. clear. revert q. intros [[] [] [] [] [] [] [] []]; vm_compute; intuition discriminate. Qed.
Lemma quote_apart : forall q r, quotes q -> apart (q :: r).
Proof. intros q r H. unfold quotes in H. revert H. clear. revert q. intros [[] [] [] [] [] [] [] []]; vm_compute; intuition discriminate. Qed.
Lemma filter_value_solid : forall d v s r, filter_value d v s -> solid (v ++ r).
Proof.
  intros d v s r H. destruct H as [v s [q s' Q _|w W] _|x b _]; cbn [app].
  - now apply quote_solid.
  - now apply word_solid.
  - split; reflexivity.
Qed.
Lemma skip_space_twice : forall t, skip_space (skip_space t) = skip_space t.
Proof.
  induction t as [|c t IH]; [reflexivity|]. cbn [skip_space]. destruct (is_space c) eqn:E1; [exact IH|].
  destruct (is_comment_char c) eqn:E2; [reflexivity|]. cbn [skip_space]. now rewrite E1, E2.
Qed.
Definition known_options : list string := ["update"; "no-update"; "verbose"; "no-tray"; "no-notify"]%string.
Lemma option_split : forall n r acc, In n (map T known_options) ->
  split_spaces (n ++ r) acc = split_spaces r (rev n ++ acc).
Proof.
  intros n r acc H. assert (F : Forall (fun c => (code c =? 32)%N = false) n) by (repeat (destruct H as [<-|H]; [repeat constructor|]); destruct H).
  clear H. revert acc. induction F as [|c n C F IH]; intros acc; [reflexivity|]. cbn [app split_spaces rev]. rewrite C, IH, <- app_assoc. reflexivity.
Qed.
Lemma options_read : forall x os, options_say x os -> split_spaces x [] = os /\
  forallb (fun n => text_in n known_options) os = true.
Proof.
  intros x os H. assert (K : forall n, In n (map T known_options) -> text_in n known_options = true /\ n <> []).
  { intros n I0. repeat (destruct I0 as [<-|I0]; [split; [reflexivity|discriminate]|]). destruct I0. }
  induction H as [|n I0|n r l I0 H [IH1 IH2]]; [split; reflexivity| |].
  - destruct (K n I0) as [K1 K2]. split; [|cbn [forallb]; now rewrite K1]. rewrite <- (app_nil_r n) at 1. rewrite option_split by exact I0.
    cbn [split_spaces]. rewrite app_nil_r. destruct (rev n) as [|c q] eqn:E; [|rewrite <- E; now rewrite rev_involutive].
    apply (f_equal (@rev ascii)) in E. rewrite rev_involutive in E. easy.
  - destruct (K n I0) as [K1 K2]. split; [|cbn [forallb]; now rewrite K1]. rewrite option_split by exact I0. cbn [split_spaces].
    change (code " " =? 32)%N with true. cbn iota. rewrite app_nil_r, rev_involutive. now rewrite IH1.
Qed.
Lemma options_solid : forall x os, options_say x os -> skip_space x = x.
Proof.
  intros x os H. assert (K : forall n r, In n (map T known_options) -> skip_space (n ++ r) = n ++ r).
  { intros n r I0. repeat (destruct I0 as [<-|I0]; [reflexivity|]). destruct I0. }
  destruct H as [|n I0|n r l I0 H]; [reflexivity| |now apply K]. rewrite <- (app_nil_r n). now apply K.
Qed.

(** * Mappings of a line *)

Lemma newline_eq : newline = [line_end].
Proof. reflexivity. Qed.
Lemma mapping_mappings : forall d t d', mapping_says typer d t d' -> t <> [].
Proof.
  intros d t d' H. destruct H as [? ? i|? ? i|? ? n s|n s].
  - now destruct i.
  - now destruct i.
  - destruct n; [|discriminate]. now destruct s.
  - destruct n; [|discriminate]. now destruct s.
Qed.
Lemma mappings_parsed : forall d t d', mappings_say typer d t d' -> forall c f, represents d c -> length t < f ->
  exists c', mappings_loop typer f t c = POk c' /\ represents d' c'.
Proof.
  intros d t d' H. induction H as [d|d t d' N0 O M|d t r d1 d2 O M H IH]; intros c f R L.
  - destruct f as [|f]; [lia|]. cbn [mappings_loop]. eauto.
  - destruct f as [|f]; [lia|]. cbn [mappings_loop]. destruct (mapping_parsed typer _ _ _ _ M R) as [c' [P R']].
    rewrite newline_eq, (outside_none _ _ O). cbn [of_sres pbind]. rewrite before_nil, P. cbn [pbind].
    destruct t as [|x t]; [easy|]. destruct f as [|f]; [cbn in L; lia|]. cbn [mappings_loop]. eauto.
  - destruct f as [|f]; [lia|]. cbn [mappings_loop].
    assert (Q : ~ quotes line_end) by (unfold quotes; vm_compute; discriminate).
    destruct (mapping_parsed typer _ _ _ _ M R) as [c' [P R']].
    assert (E : before (t ++ line_end :: r) r = t ++ [line_end]).
    { change (line_end :: r) with ([line_end] ++ r). now rewrite app_assoc, before_app. }
    destruct (t ++ line_end :: r) as [|x y] eqn:Et; [now destruct t|]. rewrite <- Et in *. clear x y Et.
    rewrite newline_eq, (outside_found _ _ _ O Q). cbn [of_sres pbind]. rewrite E, P. cbn [pbind].
    apply IH; [exact R'|]. rewrite app_length in L. cbn [length] in L. lia.
Qed.

(** * Lines *)

Lemma no_definition_read : forall l, no_definition l -> forall i q, read_ident (skip_space l) = (i, q) ->
  skip (T "=") (skip_space q) = None.
Proof.
  intros l H i q E. apply read_ident_parts in E as [E [F _]]. destruct (skip (T "=") (skip_space q)) as [r|] eqn:Sk; [|reflexivity]. exfalso.
  apply skip_app in Sk. change (T "=" ++ r) with ("=" :: r) in Sk.
  destruct (skip_space_split q) as [s [[S0 Eq]|[s' [cm [_ [_ [_ [_ E']]]]]]]]; [|rewrite E' in Sk; discriminate].
  rewrite Sk in Eq. destruct (skip_space_split l) as [s2 [[S2 El]|[s2' [cm [_ [_ [_ [_ E']]]]]]]].
  - apply (H s2 i s r); auto. now rewrite El, E, Eq.
  - rewrite E' in E. subst q. symmetry in E. apply app_eq_nil in E as [_ E]. apply app_eq_nil in E as [_ E]. discriminate.
Qed.

Section Line.
Variable parse_lines : list text -> cstate -> pres cstate.
Variable included : doc -> list text -> doc -> Prop.
Hypothesis included_parsed : forall d ls ls' d' c, included d ls' d' -> unmarked ls ls' -> represents d c ->
  exists c', parse_lines ls c = POk c' /\ represents d' c'.
Local Notation parse_line := (parse_line typer regex_ok read_file current_system parse_lines).

Lemma line_mappings : forall d c l t, represents d c -> no_definition l -> expands (d_macros d) 30 l t ->
  parse_line l c =
  match skip (T "@") (skip_space t) with
  | Some r => parse_directive typer regex_ok read_file parse_lines r c
  | None =>
      match skip (T "[") (skip_space t) with
      | Some r => do c <- parse_context regex_ok current_system r c ;; POk (header_end c)
      | None => mappings_loop typer (S (length (skip_space t))) (skip_space t) (c_set_after_empty false c)
      end
  end.
Proof.
  intros d c l t R Nd X. unfold Config.parse_line. destruct (read_ident (skip_space l)) as [i q] eqn:E.
  rewrite (no_definition_read l Nd i q E), (rep_expanded d c l t R X). cbn [pbind].
  destruct (skip (T "@") (skip_space t)); [reflexivity|]. destruct (skip (T "[") (skip_space t)) as [r|]; [|reflexivity].
  destruct (parse_context regex_ok current_system r c) as [c'| | |]; [|reflexivity..]. cbn [pbind]. unfold header_end.
  destruct (back (c_contexts c')) as [x|]; [|reflexivity]. destruct (cc_stage x); reflexivity.
Qed.
Lemma skip_char_none : forall c x, match x with y :: _ => y <> c | [] => True end -> skip [c] x = None.
Proof.
  intros c [|y x] H; [reflexivity|]. cbn [skip]. destruct (Ascii.eqb c y) eqn:E; [|reflexivity]. apply Ascii.eqb_eq in E. congruence.
Qed.

Theorem line_parsed : forall d l d' c, line_says typer regex_ok read_file current_system included d l d' -> represents d c ->
  exists c', parse_line l c = POk c' /\ represents d' c'.
Proof.
  intros d l d' c H R.
  destruct H as [l t s x d' Nd X -> S0 Hx M
    |l t s s1 s2 s3 Nd X S0 S1 S2 S3 ->|l t s s1 s2 s3 bs b Nd X S0 S1 S2 S3 E ->
    |l t s s1 x s3 bs b as_ conds sys Nd X S0 S1 S3 Ha E Ef ->
    |s n s1 s2 i x r left l ks S0 S1 S2 W K Wi A X Kx Nl He <-
    |s n s1 s2 x v b S0 S1 S2 W Fx Hb He P Lb
    |l t s b v Nd X S0 O Lb|l t s b v Nd X S0 O Lb|l t s s' b Nd X S0 S1 -> Lb
    |l t s s1 s2 b skips by_id v x f Nd X S0 S1 S2 V Ff A -> Lb|l t s b m v Nd X S0 Hm O Lb
    |l t s s1 x os b Nd X S0 S1 -> A Os Lb|l t s x k alt b Nd X S0 -> A Ka Ri Lb
    |l t s s1 s2 q x b ls ls' d' Nd X S0 S1 S2 Q Nq -> Lb Sb Rf U Hi|l t s x b Nd X S0 -> Lb Sb].
  - rewrite (line_mappings d c l _ R Nd X). rewrite skip_spaces by exact S0.
    rewrite skip_space_first by (destruct x as [|y x]; [exact Logic.I|split; apply Hx]).
    change (T "@") with ["@"]. change (T "[") with ["["].
    rewrite !skip_char_none by (destruct x as [|y x]; [exact Logic.I|apply Hx]).
    eapply mappings_parsed; [exact M|now apply rep_open|lia].
  - rewrite (line_mappings d c l _ R Nd X). rewrite skip_solid; [|exact S0|split; reflexivity].
    change (skip (T "@") ("[" :: s1 ++ T "stage" ++ s2 ++ "]" :: s3)) with (@None text).
    change (skip (T "[") ("[" :: s1 ++ T "stage" ++ s2 ++ "]" :: s3)) with (Some (s1 ++ T "stage" ++ s2 ++ "]" :: s3)). cbn iota.
    rewrite context_stage by assumption. cbn [pbind]. eexists. split; [reflexivity|]. now apply stage_added.
  - rewrite (line_mappings d c l _ R Nd X). rewrite skip_solid; [|exact S0|split; reflexivity].
    change (skip (T "@") ("[" :: s1 ++ T "default" ++ s2 ++ "]" :: s3)) with (@None text).
    change (skip (T "[") ("[" :: s1 ++ T "default" ++ s2 ++ "]" :: s3)) with (Some (s1 ++ T "default" ++ s2 ++ "]" :: s3)). cbn iota.
    rewrite context_default by assumption. cbn [pbind]. eexists. split; [reflexivity|]. now apply block_added.
  - rewrite (line_mappings d c l _ R Nd X). rewrite skip_solid; [|exact S0|split; reflexivity].
    change (skip (T "@") ("[" :: s1 ++ x ++ s3)) with (@None text).
    change (skip (T "[") ("[" :: s1 ++ x ++ s3)) with (Some (s1 ++ x ++ s3)). cbn iota.
    destruct (context_header d c s1 x as_ s3 R S1 Ha S3) as [y [E1 [E2 E3]]]. rewrite E1. cbn [pbind].
    eexists. split; [reflexivity|]. rewrite Ef in E2. now apply block_added.
  - unfold Config.parse_line. rewrite skip_solid; [|exact S0|now apply word_solid].
    rewrite read_word; [|exact W|apply spaces_apart; [exact S1|reflexivity]]. rewrite skip_solid; [|exact S1|split; reflexivity].
    change (skip (T "=") ("=" :: s2 ++ i ++ r)) with (Some (s2 ++ i ++ r)). cbn iota.
    rewrite skip_solid; [|exact S2|now apply word_solid].
    destruct (logical_defined d c n i x r left l R K Wi X Kx Nl He) as [c' [E R']]. rewrite E. cbn [pbind]. eauto.
  - unfold Config.parse_line. rewrite skip_solid; [|exact S0|now apply word_solid].
    rewrite read_word; [|exact W|apply spaces_apart; [exact S1|reflexivity]]. rewrite skip_solid; [|exact S1|split; reflexivity].
    change (skip (T "=") ("=" :: s2 ++ x)) with (Some (s2 ++ x)). cbn iota. rewrite skip_spaces by exact S2.
    destruct (macro_defined d c n x v b R W Fx Hb He P Lb) as [E [c' [E' R']]]. rewrite E. cbn [pbind]. rewrite E'. eauto.
  - rewrite (line_mappings d c l _ R Nd X).
    assert (Et : exists x, t = s ++ "@" :: x) by (destruct O; subst; eauto). destruct Et as [x Et]. rewrite Et.
    rewrite skip_solid; [|exact S0|split; reflexivity]. change (skip (T "@") ("@" :: x)) with (Some x). cbn iota.
    unfold parse_directive. rewrite (r_sys _ _ R b Lb). destruct (bl_sys b); cbn [negb]; [|eauto].
    destruct (option_parsed _ _ _ _ x O) as [q [E1 [q' [E2 E3]]]]; [split; [discriminate|repeat constructor]|exact Et|].
    rewrite E1. cbn zeta. cbn [text_eqb T list_ascii_of_string Ascii.eqb Bool.eqb andb]. rewrite E2. cbn [pbind fst snd]. rewrite E3.
    eexists. split; [reflexivity|]. now apply rep_unmapped.
  - rewrite (line_mappings d c l _ R Nd X).
    assert (Et : exists x, t = s ++ "@" :: x) by (destruct O; subst; eauto). destruct Et as [x Et]. rewrite Et.
    rewrite skip_solid; [|exact S0|split; reflexivity]. change (skip (T "@") ("@" :: x)) with (Some x). cbn iota.
    unfold parse_directive. rewrite (r_sys _ _ R b Lb). destruct (bl_sys b); cbn [negb]; [|eauto].
    destruct (option_parsed _ _ _ _ x O) as [q [E1 [q' [E2 E3]]]]; [split; [discriminate|repeat constructor]|exact Et|].
    rewrite E1. cbn zeta. cbn [text_eqb T list_ascii_of_string Ascii.eqb Bool.eqb andb]. rewrite E2. cbn [pbind fst snd]. rewrite E3.
    eexists. split; [reflexivity|]. now apply rep_lower.
  - rewrite (line_mappings d c l _ R Nd X).
    rewrite skip_solid; [|exact S0|split; reflexivity]. change (skip (T "@") ("@" :: T "done" ++ s')) with (Some (T "done" ++ s')). cbn iota.
    unfold parse_directive. rewrite (r_sys _ _ R b Lb). destruct (bl_sys b); cbn [negb]; [|eauto].
    rewrite read_word; [|split; [discriminate|repeat constructor]|rewrite <- (app_nil_r s'); now apply spaces_apart].
    cbn zeta. cbn [text_eqb T list_ascii_of_string Ascii.eqb Bool.eqb andb]. cbn [pbind]. rewrite (skip_only_spaces s' S1). cbn [skip_space].
    eexists. split; [reflexivity|]. now apply rep_done.
  - rewrite (line_mappings d c l _ R Nd X). rewrite skip_solid; [|exact S0|split; reflexivity].
    change (skip (T "@") ("@" :: device_directive skips by_id ++ s1 ++ v ++ s2)) with (Some (device_directive skips by_id ++ s1 ++ v ++ s2)). cbn iota.
    unfold parse_directive. rewrite (r_sys _ _ R b Lb). destruct (bl_sys b); cbn [negb]; [|eauto].
    assert (So : solid (v ++ s2)) by (now apply (filter_value_solid d v x)).
    assert (Fr : read_filter regex_ok (c_macros c) skips (v ++ s2) = POk (f, s2)).
    { apply (filter_read regex_ok current_system d c skips v x f s2 R V Ff). rewrite <- (app_nil_r s2). now apply spaces_apart. }
    assert (Ri : read_ident (device_directive skips by_id ++ s1 ++ v ++ s2) = (device_directive skips by_id, s1 ++ v ++ s2)).
    { apply read_word; [destruct skips, by_id; (split; [discriminate|repeat constructor])|].
      destruct S1 as [|y s1 Y _]; [|now apply space_not_ident]. cbn [app] in *. destruct v as [|y v]; [|exact A].
      inversion V as [? ? Hv| ]; subst. inversion Hv as [|? [? _]]; subst. easy. }
    rewrite Ri. cbn zeta. rewrite skip_solid by assumption.
    destruct skips, by_id; cbn [device_directive app text_eqb T list_ascii_of_string Ascii.eqb Bool.eqb andb]; rewrite Fr; cbn [pbind fst snd]; rewrite (skip_only_spaces s2 S2); (eexists; split; [reflexivity|]); now apply rep_grab.
  - rewrite (line_mappings d c l _ R Nd X).
    assert (Et : exists x, t = s ++ "@" :: x) by (destruct O; subst; eauto). destruct Et as [x Et]. rewrite Et.
    rewrite skip_solid; [|exact S0|split; reflexivity]. change (skip (T "@") ("@" :: x)) with (Some x). cbn iota.
    unfold parse_directive. rewrite (r_sys _ _ R b Lb). destruct (bl_sys b); cbn [negb andb]; [|eauto].
    destruct (option_parsed _ _ _ _ x O) as [q [E1 [q' [E2 E3]]]]; [destruct Hm; subst m; (split; [discriminate|repeat constructor])|exact Et|].
    rewrite E1. cbn zeta. destruct Hm; subst m; cbn [text_eqb T list_ascii_of_string Ascii.eqb Bool.eqb andb text_in existsb orb];
      rewrite E2; cbn [pbind fst snd]; rewrite E3; (eexists; split; [reflexivity|]); (destruct v; [now apply rep_directive|exact R]).
  - rewrite (line_mappings d c l _ R Nd X). rewrite skip_solid; [|exact S0|split; reflexivity].
    change (skip (T "@") ("@" :: T "options" ++ s1 ++ x)) with (Some (T "options" ++ s1 ++ x)). cbn iota.
    unfold parse_directive. rewrite (r_sys _ _ R b Lb). destruct (bl_sys b); cbn [negb]; [|eauto].
    rewrite read_word; [|split; [discriminate|repeat constructor]|exact A]. cbn zeta.
    rewrite skip_spaces by exact S1. rewrite (options_solid x os Os).
    destruct (options_read x os Os) as [E1 E2].
    cbn [text_eqb T list_ascii_of_string Ascii.eqb Bool.eqb andb text_in existsb orb]. rewrite E1. unfold text_in, known_options in E2. cbn [existsb text_eqb T list_ascii_of_string] in E2 |- *.
    rewrite E2. cbn [pbind skip_space].
    eexists. split; [reflexivity|]. now apply rep_options.
  - rewrite (line_mappings d c l _ R Nd X). rewrite skip_solid; [|exact S0|split; reflexivity].
    change (skip (T "@") ("@" :: T "compose-key" ++ x)) with (Some (T "compose-key" ++ x)). cbn iota.
    unfold parse_directive. rewrite (r_sys _ _ R b Lb). destruct (bl_sys b); cbn [negb]; [|eauto].
    rewrite read_word; [|split; [discriminate|repeat constructor]|exact A]. cbn zeta.
    cbn [text_eqb T list_ascii_of_string Ascii.eqb Bool.eqb andb].
    assert (Pi : parse_input typer c (skip_space x) = parse_input typer c x) by (unfold parse_input; now rewrite skip_space_twice).
    rewrite Pi, (input_read _ _ _ _ _ R Ri). cbn [pbind]. destruct alt; cbn [ek pbind skip_space].
    + change (AltRight =? AltRight)%N with true. cbn iota. eexists. split; [reflexivity|]. now apply rep_set_compose.
    + specialize (Ka eq_refl). apply N.eqb_neq in Ka. rewrite Ka. cbn [negb]. eexists. split; [reflexivity|]. now apply rep_set_compose.
  - rewrite (line_mappings d c l _ R Nd X). rewrite skip_solid; [|exact S0|split; reflexivity].
    change (skip (T "@") ("@" :: T "include" ++ s1 ++ q :: x ++ q :: s2)) with (Some (T "include" ++ s1 ++ q :: x ++ q :: s2)). cbn iota.
    unfold parse_directive. rewrite (r_sys _ _ R b Lb), Sb. cbn [negb].
    rewrite read_word; [|split; [discriminate|repeat constructor]|apply spaces_apart; [exact S1|now apply quote_apart]]. cbn zeta.
    rewrite skip_solid; [|exact S1|now apply quote_solid].
    cbn [text_eqb T list_ascii_of_string Ascii.eqb Bool.eqb andb read_string]. rewrite Q.
    destruct (string_read q x s2 Q Nq) as [E1 [E2 _]]. rewrite E1, E2. cbn [of_sres pbind fst snd]. rewrite Rf.
    destruct (included_parsed _ _ _ _ (c_set_includes (c_includes c ++ [x]) c) Hi U) as [c' [E3 R']]; [now apply rep_include|].
    match goal with |- context [parse_lines ls ?y] => change (parse_lines ls y) with (parse_lines ls (c_set_includes (c_includes c ++ [x]) c)) end.
    rewrite E3. cbn [pbind]. rewrite (skip_only_spaces s2 S2). eauto.
  - rewrite (line_mappings d c l _ R Nd X). rewrite skip_solid; [|exact S0|split; reflexivity].
    change (skip (T "@") ("@" :: T "include" ++ x)) with (Some (T "include" ++ x)). cbn iota.
    unfold parse_directive. rewrite (r_sys _ _ R b Lb), Sb. cbn [negb]. eauto.
Qed.

(** * Files *)

Lemma drop_spaces : forall s x, spaces s -> drop_space (s ++ x) = drop_space x.
Proof. intros s x H. induction H as [|c s C _ IH]; [reflexivity|]. cbn. now rewrite C. Qed.
Lemma drop_space_split : forall t, exists s, spaces s /\ t = s ++ drop_space t /\ match drop_space t with c :: _ => is_space c = false | [] => True end.
Proof.
  intros t. induction t as [|c t [s [S0 [E F]]]].
  - exists []. repeat split. constructor.
  - cbn [drop_space]. destruct (is_space c) eqn:C.
    + exists (c :: s). repeat split; [constructor; assumption|cbn; now rewrite <- E|exact F].
    + exists []. repeat split; [constructor|exact C].
Qed.
Lemma spaces_rev : forall s, spaces s -> spaces (rev s).
Proof. intros s H. now apply Forall_rev. Qed.
Lemma trim_continued : forall x s, spaces s -> trim_space (x ++ "\" :: s) = x ++ ["\"].
Proof.
  intros x s S0. unfold trim_space. rewrite rev_app_distr. cbn [rev]. rewrite <- app_assoc, drop_spaces by (now apply spaces_rev).
  cbn [app]. change (drop_space ("\" :: rev x)) with ("\" :: rev x). cbn [rev]. now rewrite rev_involutive.
Qed.
Lemma pop_back_app : forall A (l : list A) x, pop_back (l ++ [x]) = l.
Proof. intros A l x. unfold pop_back. apply removelast_last. Qed.
Lemma not_continued : forall l, (forall x, ~ continued l x) ->
  match back (trim_space l) with Some x => (code x =? 92)%N = false | None => True end.
Proof.
  intros l H. destruct (back (trim_space l)) as [y|] eqn:E; [|exact Logic.I]. destruct (code y =? 92)%N eqn:C; [|reflexivity]. exfalso.
  assert (Y : y = "\") by (revert C; clear; revert y; intros [[] [] [] [] [] [] [] []]; vm_compute; congruence). subst y.
  unfold trim_space in E. destruct (drop_space_split (rev l)) as [s [S0 [El _]]].
  unfold back in E. rewrite rev_involutive in E. destruct (drop_space (rev l)) as [|z r] eqn:D; [discriminate|]. cbn in E. injection E as ->.
  apply (f_equal (@rev ascii)) in El. rewrite rev_involutive in El. rewrite rev_app_distr in El. cbn [rev] in El.
  rewrite <- app_assoc in El. apply (H (rev r)). exists (rev s). split; [now apply spaces_rev|exact El].
Qed.
Theorem lines_parsed : forall d p ls d', lines_say typer regex_ok read_file current_system included d p ls d' -> forall c, represents d c ->
  exists c', lines_loop parse_line ls p c = POk c' /\ represents d' c'.
Proof.
  intros d p ls d' H. induction H as [d|d ls D|d p l r d1 d2 D Nc L H IH|d p l x r d' D C H IH]; intros c R.
  - cbn. eauto.
  - destruct ls as [|l ls]; cbn [lines_loop]; [eauto|]. rewrite (r_done _ _ R), D. eauto.
  - cbn [lines_loop]. rewrite (r_done _ _ R), D. cbn zeta. destruct (line_parsed d (p ++ l) d1 c L R) as [c1 [E R1]].
    pose proof (not_continued l Nc) as B. destruct (back (trim_space l)) as [y|].
    + rewrite B, E. cbn [pbind]. now apply IH.
    + rewrite E. cbn [pbind]. now apply IH.
  - cbn [lines_loop]. rewrite (r_done _ _ R), D. cbn zeta. destruct C as [s [S0 ->]]. rewrite trim_continued by exact S0.
    rewrite back_app, pop_back_app. change (code "\" =? 92)%N with true. cbn iota. now apply IH.
Qed.
End Line.

Lemma split_joined : forall ls acc, ls <> [] -> Forall (fun l => ~ In line_end l) ls ->
  split_lines (joined ls) acc = match ls with l :: r => (rev acc ++ l) :: r | [] => [] end.
Proof.
  assert (G : forall l acc rest, ~ In line_end l -> split_lines (l ++ line_end :: rest) acc = (rev acc ++ l) :: split_lines rest []).
  { intros l. induction l as [|c l IH]; intros acc rest N0.
    - cbn [app split_lines]. change (code line_end =? 10)%N with true. cbn iota. now rewrite app_nil_r.
    - cbn [app split_lines]. assert (C : (code c =? 10)%N = false).
      { destruct (code c =? 10)%N eqn:E; [|reflexivity]. exfalso. apply N0. left. revert E. clear. revert c.
        intros [[] [] [] [] [] [] [] []]; vm_compute; congruence. }
      rewrite C, IH by (intros H; apply N0; now right). cbn [rev]. now rewrite <- app_assoc. }
  assert (G1 : forall l acc, ~ In line_end l -> split_lines l acc = [rev acc ++ l]).
  { intros l. induction l as [|c l IH]; intros acc N0.
    - cbn. now rewrite app_nil_r.
    - cbn [split_lines]. assert (C : (code c =? 10)%N = false).
      { destruct (code c =? 10)%N eqn:E; [|reflexivity]. exfalso. apply N0. left. revert E. clear. revert c.
        intros [[] [] [] [] [] [] [] []]; vm_compute; congruence. }
      rewrite C, IH by (intros H; apply N0; now right). cbn [rev]. now rewrite <- app_assoc. }
  intros ls. induction ls as [|l ls IH]; intros acc N0 F; [easy|]. inversion F as [|? ? Fl Fr]; subst. destruct ls as [|l2 ls].
  - cbn [joined]. now apply G1.
  - change (joined (l :: l2 :: ls)) with (l ++ line_end :: joined (l2 :: ls)). rewrite G by exact Fl. f_equal.
    rewrite IH; [reflexivity|discriminate|exact Fr].
Qed.

Lemma init_represents : represents first_doc c_init.
Proof.
  constructor; try reflexivity.
  - constructor; [|constructor]. constructor; try reflexivity; constructor.
  - intros b [bs E]. destruct bs as [|x bs].
    + injection E as <-. reflexivity.
    + cbn in E. injection E as _ E. now destruct bs.
  - discriminate.
  - constructor.
  - intros n. split; [intros []|]. intros [b [i [[<-|[]] []]]].
  - intros x [].
  - constructor.
Qed.
End Lines.
