(** How a document is stored while its file is read, and that mappings are stored so. *)
From Coq Require Import String Ascii List Arith NArith ZArith Bool Lia FinFun Sorted.
From Verif Require Import Base Key Text TextSpec TextProofs ParseSeq Stage Config ConfigSpec ClientProofs
  MacroSpec MacroTokens MacroCalls ExprSpec ExprProofs ExpandSpec ExpandProofs FileSpec.
Import ListNotations.
Local Open Scope char_scope.
Local Open Scope nat_scope.

Definition named (cmds : list named_command) (n : text) (z : Z) : Prop :=
  exists m, find (fun x => text_eqb (nc_name x) n) cmds = Some (NC n z m).
Definition aim_rep (cmds : list named_command) (a : aim) (t : target) : Prop :=
  match a, t with
  | Output o, TOut o' => o' = o
  | Command n, TCmd z => named cmds n z
  | _, _ => False
  end.
Definition map_rep cmds (m : sequence * aim) (m' : mapping) : Prop :=
  fst m' = fst m /\ aim_rep cmds (snd m) (snd m').
Definition cmd_rep cmds (m : text * sequence) (m' : command) : Prop :=
  cm_out m' = snd m /\ named cmds (fst m) (cm_idx m').
Record block_rep (cmds : list named_command) (b : block) (x : cctx) : Prop := {
  br_attrs : attrs_of x = bl_attrs b;
  br_sys : cc_sys x = bl_sys b;
  br_stage : cc_stage x = bl_stage b;
  br_shares : cc_fall x = bl_shares b;
  br_maps : Forall2 (map_rep cmds) (bl_maps b) (mappings x);
  br_cmds : Forall2 (cmd_rep cmds) (bl_cmds b) (cc_commands x);
  br_outs : Forall (fun i => (in_out i < Z.of_nat (length (cc_outputs x)))%Z) (cc_inputs x)
}.
Record represents (d : doc) (c : cstate) : Prop := {
  r_blocks : Forall2 (block_rep (c_commands c)) (d_blocks d) (c_contexts c);
  r_actions : c_actions c = d_actions d;
  r_macros : forall n, find_macro (c_macros c) n = d_macros d n;
  r_logical : c_logical c = d_logical d;
  r_lower : c_lowercase c = d_lower d;
  r_unmapped : c_unmapped c = d_unmapped d;
  r_open : c_after_empty c = d_open d;
  r_done : c_done c = d_done d;
  r_sys : forall b, last_block d b -> c_sysmatch c = bl_sys b;
  r_more : Extras (c_grab c) (c_directives c) (c_options c) (c_includes c) (c_compose c) = d_more d;
  r_forward : c_forward c = [];
  r_some : d_blocks d <> [];
  r_names : NoDup (map nc_name (c_commands c));
  r_index : map nc_index (c_commands c) = map (fun i => (- Z.of_nat (S i))%Z) (seq 0 (length (c_commands c)));
  r_mentioned : forall n, In n (map nc_name (c_commands c)) <-> mentioned d n;
  r_mapped : forall x, In x (c_commands c) -> (nc_mapped x = true <-> mapped d (nc_name x));
  r_sorted : StronglySorted (fun a b => text_ltb a b = true) (map fst (c_macros c))
}.
Lemma rep_compose : forall d c, represents d c -> c_compose c = x_compose (d_more d).
Proof. intros d c R. now rewrite <- (r_more _ _ R). Qed.

(** * The names of commands *)

Lemma text_eqb_refl : forall t, text_eqb t t = true.
Proof. intros t. now apply text_eqb_eq. Qed.
Lemma find_none : forall cmds n, find (fun x => text_eqb (nc_name x) n) cmds = None <-> ~ In n (map nc_name cmds).
Proof.
  intros cmds n. induction cmds as [|x cmds IH]; cbn [find map In]; [tauto|].
  destruct (text_eqb (nc_name x) n) eqn:E.
  - apply text_eqb_eq in E. split; [discriminate|intros H; exfalso; apply H; now left].
  - apply text_eqb_neq in E. rewrite IH. tauto.
Qed.
Lemma find_some : forall cmds n x, find (fun x => text_eqb (nc_name x) n) cmds = Some x -> In x cmds /\ nc_name x = n.
Proof.
  intros cmds n x H. apply find_some in H as [H E]. split; [exact H|]. now apply text_eqb_eq in E.
Qed.
Lemma named_find : forall cmds n x, find (fun x => text_eqb (nc_name x) n) cmds = Some x -> named cmds n (nc_index x).
Proof.
  intros cmds n x H. pose proof (find_some _ _ _ H) as [_ E]. exists (nc_mapped x). rewrite H. destruct x. cbn in *. now subst.
Qed.
Lemma named_name : forall cmds n z, named cmds n z -> exists m, In (NC n z m) cmds.
Proof. intros cmds n z [m H]. apply find_some in H as [H _]. eauto. Qed.
Lemma in_named : forall cmds x, NoDup (map nc_name cmds) -> In x cmds -> named cmds (nc_name x) (nc_index x).
Proof.
  intros cmds x. unfold named. induction cmds as [|y cmds IH]; [easy|]. cbn [map In find]. intros N0 [->|H].
  - rewrite text_eqb_refl. exists (nc_mapped x). now destruct x.
  - inversion N0 as [|? ? A B]; subst. destruct (text_eqb (nc_name y) (nc_name x)) eqn:E.
    + apply text_eqb_eq in E. exfalso. apply A. rewrite E. apply in_map_iff. eauto.
    + now apply IH.
Qed.
Lemma named_more : forall cmds x n z, named cmds n z -> named (cmds ++ [x]) n z.
Proof.
  intros cmds x n z [m H]. exists m. induction cmds as [|y cmds IH]; [discriminate|]. cbn [find app] in *.
  destruct (text_eqb (nc_name y) n); [exact H|now apply IH].
Qed.
Lemma named_last : forall cmds n z m, ~ In n (map nc_name cmds) -> named (cmds ++ [NC n z m]) n z.
Proof.
  intros cmds n z m H. exists m. apply find_none in H. induction cmds as [|y cmds IH]; cbn [find app nc_name] in *.
  - now rewrite text_eqb_refl.
  - destruct (text_eqb (nc_name y) n); [discriminate|now apply IH].
Qed.
Definition mark_mapped (n : text) (cmds : list named_command) : list named_command :=
  match find_index (fun y => text_eqb (nc_name y) n) cmds with
  | Some i => update_at i (fun y => NC (nc_name y) (nc_index y) true) cmds
  | None => cmds
  end.
Lemma mark_cons : forall n y cmds, mark_mapped n (y :: cmds) =
  if text_eqb (nc_name y) n then NC (nc_name y) (nc_index y) true :: cmds else y :: mark_mapped n cmds.
Proof.
  intros n y cmds. unfold mark_mapped. cbn [find_index]. destruct (text_eqb (nc_name y) n); [reflexivity|].
  destruct (find_index (fun y0 => text_eqb (nc_name y0) n) cmds); reflexivity.
Qed.
Lemma named_marked : forall m cmds n z, named cmds n z -> named (mark_mapped m cmds) n z.
Proof.
  intros m cmds n z [b H]. induction cmds as [|y cmds IH]; [discriminate|]. rewrite mark_cons. cbn [find] in H.
  destruct (text_eqb (nc_name y) n) eqn:E.
  - injection H as ->. exists (if text_eqb n m then true else b). cbn [nc_name nc_index].
    destruct (text_eqb n m); cbn [find nc_name]; now rewrite text_eqb_refl.
  - specialize (IH H). destruct (text_eqb (nc_name y) m).
    + exists b. cbn [find nc_name]. now rewrite E.
    + destruct IH as [b' IH]. exists b'. cbn [find]. now rewrite E.
Qed.
Lemma names_marked : forall m cmds, map nc_name (mark_mapped m cmds) = map nc_name cmds.
Proof.
  intros m cmds. induction cmds as [|y cmds IH]; [reflexivity|]. rewrite mark_cons.
  destruct (text_eqb (nc_name y) m); cbn [map]; [reflexivity|now rewrite IH].
Qed.
Lemma indices_marked : forall m cmds, map nc_index (mark_mapped m cmds) = map nc_index cmds.
Proof.
  intros m cmds. induction cmds as [|y cmds IH]; [reflexivity|]. rewrite mark_cons.
  destruct (text_eqb (nc_name y) m); cbn [map]; [reflexivity|now rewrite IH].
Qed.
Lemma length_marked : forall m cmds, length (mark_mapped m cmds) = length cmds.
Proof. intros m cmds. rewrite <- (map_length nc_name), names_marked. apply map_length. Qed.
Lemma in_marked : forall m cmds x, NoDup (map nc_name cmds) -> In x (mark_mapped m cmds) ->
  exists y, In y cmds /\ nc_name y = nc_name x /\ nc_mapped x = (text_eqb (nc_name x) m || nc_mapped y).
Proof.
  intros m cmds x. induction cmds as [|y cmds IH]; [easy|]. intros N0 H. rewrite mark_cons in H.
  inversion N0 as [|? ? A B]; subst. destruct (text_eqb (nc_name y) m) eqn:E.
  - destruct H as [<-|H].
    + exists y. cbn. rewrite E. auto.
    + exists x. repeat split; [now right|]. apply text_eqb_eq in E. destruct (text_eqb (nc_name x) m) eqn:E'; [|reflexivity].
      apply text_eqb_eq in E'. exfalso. apply A. rewrite E, <- E'. apply in_map_iff. eauto.
  - destruct H as [<-|H].
    + exists y. rewrite E. cbn. auto.
    + destruct (IH B H) as [z [Hz Hx]]. exists z. cbn [In]. auto.
Qed.

Lemma NoDup_snoc : forall A (l : list A) x, NoDup l -> ~ In x l -> NoDup (l ++ [x]).
Proof.
  intros A l x H N0. apply NoDup_rev in H. rewrite <- (rev_involutive (l ++ [x])). apply NoDup_rev. rewrite rev_app_distr.
  cbn. constructor; [|exact H]. now rewrite <- in_rev.
Qed.

(** * Changing the last block *)

Lemma map_last_app : forall A (f : A -> A) l x, map_last f (l ++ [x]) = l ++ [f x].
Proof.
  intros A f l x. unfold map_last. rewrite app_length. cbn [length]. replace (length l + 1 - 1) with (length l) by lia.
  induction l as [|y l IH]; [reflexivity|]. cbn [length app update_at]. now rewrite IH.
Qed.
Lemma Forall2_last : forall A B (R : A -> B -> Prop) l x m, Forall2 R (l ++ [x]) m ->
  exists m' y, m = m' ++ [y] /\ Forall2 R l m' /\ R x y.
Proof.
  intros A B R l x m H. apply Forall2_app_inv_l in H as [m' [m'' [H1 [H2 ->]]]].
  inversion H2 as [|? y ? ? Hy H3]; subst. inversion H3; subst. eauto.
Qed.
Lemma Forall2_weaken : forall A B (R S : A -> B -> Prop), (forall x y, R x y -> S x y) ->
  forall l m, Forall2 R l m -> Forall2 S l m.
Proof. intros A B R S H l m F. induction F; constructor; auto. Qed.
Lemma rep_more : forall cmds cmds', (forall n z, named cmds n z -> named cmds' n z) ->
  forall b x, block_rep cmds b x -> block_rep cmds' b x.
Proof.
  intros cmds cmds' H b x [A1 A2 A3 A4 A5 A6 A7]. constructor; try assumption.
  - apply Forall2_weaken with (2 := A5). intros [i [o|n]] [j [o'|z]]; unfold map_rep, aim_rep; cbn; intuition.
  - apply Forall2_weaken with (2 := A6). intros [n o] c; unfold cmd_rep; cbn; intuition.
Qed.

Definition with_map (i : sequence) (z : Z) (os : list sequence) (x : cctx) : cctx :=
  cc_set_maps (cc_inputs x ++ [Inp i z]) (cc_outputs x ++ os) (cc_commands x) x.
Lemma target_more : forall outs os i, (in_out i < Z.of_nat (length outs))%Z -> target_of (outs ++ os) i = target_of outs i.
Proof.
  intros outs os i H. unfold target_of. destruct (0 <=? in_out i)%Z eqn:E; [|reflexivity].
  apply Z.leb_le in E. rewrite app_nth1; [reflexivity|lia].
Qed.
Lemma mappings_with : forall i z os x, Forall (fun i => (in_out i < Z.of_nat (length (cc_outputs x)))%Z) (cc_inputs x) ->
  mappings (with_map i z os x) = mappings x ++ [(i, target_of (cc_outputs x ++ os) (Inp i z))].
Proof.
  intros i z os x H. unfold mappings, with_map. cbn [cc_inputs cc_outputs cc_set_maps]. rewrite map_app. cbn [map in_seq].
  apply (f_equal (fun l => l ++ _)). apply map_ext_in. intros y Hy. f_equal. apply target_more.
  apply (proj1 (Forall_forall _ _) H). exact Hy.
Qed.
Lemma rep_map : forall cmds b x i a z os, block_rep cmds b x -> (z < Z.of_nat (length (cc_outputs x ++ os)))%Z ->
  aim_rep cmds a (target_of (cc_outputs x ++ os) (Inp i z)) ->
  block_rep cmds (add_map i a b) (with_map i z os x).
Proof.
  intros cmds b x i a z os [A1 A2 A3 A4 A5 A6 A7] L H. constructor; try assumption.
  - rewrite mappings_with by exact A7. cbn [add_map bl_maps]. apply Forall2_app; [exact A5|].
    constructor; [|constructor]. split; [reflexivity|exact H].
  - unfold with_map. cbn [cc_outputs cc_inputs cc_set_maps]. apply Forall_app. split.
    + apply Forall_impl with (2 := A7). intros y Hy. rewrite app_length. lia.
    + constructor; [exact L|constructor].
Qed.
Lemma rep_cmd : forall cmds b x n o z, block_rep cmds b x -> named cmds n z ->
  block_rep cmds (add_cmd n o b) (cc_set_maps (cc_inputs x) (cc_outputs x) (cc_commands x ++ [Cmd o z]) x).
Proof.
  intros cmds b x n o z [A1 A2 A3 A4 A5 A6 A7] H. constructor; try assumption.
  cbn [add_cmd bl_cmds cc_set_maps cc_commands]. apply Forall2_app; [exact A6|].
  constructor; [|constructor]. split; [reflexivity|exact H].
Qed.

(** Mentioned and mapped commands *)
Lemma mentioned_app : forall d bs b b' n, d_blocks d = bs ++ [b] ->
  (forall i m, In (i, Command m) (bl_maps b') <-> In (i, Command m) (bl_maps b)) ->
  mentioned (set_blocks (bs ++ [b']) d) n <-> mentioned d n.
Proof.
  intros d bs b b' n E H. unfold mentioned. cbn [set_blocks d_blocks]. rewrite E. split; intros [y [i [Hy Hi]]];
    apply in_app_iff in Hy as [Hy|[<-|[]]].
  - exists y, i. rewrite in_app_iff. auto.
  - exists b, i. rewrite in_app_iff. rewrite <- H. cbn. auto.
  - exists y, i. rewrite in_app_iff. auto.
  - exists b', i. rewrite in_app_iff, H. cbn. auto.
Qed.
Lemma mapped_app : forall d bs b b' n, d_blocks d = bs ++ [b] ->
  (In n (map fst (bl_cmds b')) <-> In n (map fst (bl_cmds b))) ->
  mapped (set_blocks (bs ++ [b']) d) n <-> mapped d n.
Proof.
  intros d bs b b' n E H. unfold mapped. cbn [set_blocks d_blocks]. rewrite E. split; intros [y [Hy Hi]];
    apply in_app_iff in Hy as [Hy|[<-|[]]].
  - exists y. rewrite in_app_iff. auto.
  - exists b. rewrite in_app_iff, <- H. cbn. auto.
  - exists y. rewrite in_app_iff. auto.
  - exists b'. rewrite in_app_iff, H. cbn. auto.
Qed.

Lemma rep_actions : forall d c l, represents d c -> represents (set_actions (d_actions d ++ l) d) (c_set_actions (c_actions c ++ l) c).
Proof.
  intros d c l [A1 A2 A3 A4 A5 A6 A7 A8 A9 A10 A11 A12 A13 A14 A15 A16 A17]. constructor; try assumption.
  cbn. now rewrite A2.
Qed.

Lemma sys_last : forall d c bs b b', represents d c -> d_blocks d = bs ++ [b] -> bl_sys b' = bl_sys b ->
  forall y, last_block (set_blocks (bs ++ [b']) d) y -> c_sysmatch c = bl_sys y.
Proof.
  intros d c bs b b' R E H y [l Hl]. cbn in Hl. apply app_inj_tail in Hl as [_ <-]. rewrite H.
  apply (r_sys _ _ R). exists bs. exact E.
Qed.

(** A mapping to an output *)
Lemma stored_mapping : forall d c bs b i o, represents d c -> d_blocks d = bs ++ [b] ->
  represents (set_blocks (bs ++ [add_map i (Output o) b]) d) (add_mapping i o c).
Proof.
  intros d c bs b i o R E. pose proof R as [A1 A2 A3 A4 A5 A6 A7 A8 A9 A10 A11 A12 A13 A14 A15 A16 A17].
  rewrite E in A1. apply Forall2_last in A1 as [xs [x [Ec [F Hx]]]].
  unfold add_mapping, upd_context. rewrite Ec, map_last_app.
  assert (L : (Z.of_nat (length (cc_outputs x)) < Z.of_nat (length (cc_outputs x ++ [o])))%Z) by (rewrite app_length; cbn; lia).
  constructor; try assumption.
  - cbn [c_set_contexts c_contexts c_commands set_blocks d_blocks]. apply Forall2_app; [exact F|]. constructor; [|constructor].
    apply (rep_map _ _ _ i (Output o) _ [o] Hx L). unfold target_of. cbn [in_out].
    destruct (0 <=? Z.of_nat (length (cc_outputs x)))%Z eqn:E0; [|apply Z.leb_gt in E0; lia].
    rewrite Nat2Z.id, app_nth2, Nat.sub_diag by lia. reflexivity.
  - eapply (sys_last d c); eauto.
  - cbn. now destruct bs.
  - intros n. cbn [c_set_contexts c_commands]. rewrite A15. symmetry. apply mentioned_app with (1 := E).
    intros j m. cbn [add_map bl_maps]. rewrite in_app_iff. cbn. split; [intros [H|[H|[]]]; [exact H|discriminate]|auto].
  - intros y Hy. cbn [c_set_contexts c_commands] in Hy. rewrite (A16 y Hy). symmetry. now apply mapped_app with (1 := E).
Qed.

(** A mapping to a command *)
Lemma stored_command : forall d c bs b i n, represents d c -> d_blocks d = bs ++ [b] ->
  represents (set_blocks (bs ++ [add_map i (Command n) b]) d) (add_command i n c).
Proof.
  intros d c bs b i n R E. pose proof R as [A1 A2 A3 A4 A5 A6 A7 A8 A9 A10 A11 A12 A13 A14 A15 A16 A17].
  rewrite E in A1. apply Forall2_last in A1 as [xs [x [Ec [F Hx]]]].
  assert (Men : forall m, mentioned (set_blocks (bs ++ [add_map i (Command n) b]) d) m <-> mentioned d m \/ m = n).
  { intros m. unfold mentioned. cbn [set_blocks d_blocks]. rewrite E. split.
    - intros [y [j [Hy Hj]]]. apply in_app_iff in Hy as [Hy|[<-|[]]].
      + left. exists y, j. rewrite in_app_iff. auto.
      + cbn [add_map bl_maps] in Hj. apply in_app_iff in Hj as [Hj|[Hj|[]]].
        * left. exists b, j. rewrite in_app_iff. cbn. auto.
        * right. now injection Hj.
    - intros [[y [j [Hy Hj]]]| ->].
      + apply in_app_iff in Hy as [Hy|[<-|[]]].
        * exists y, j. rewrite in_app_iff. auto.
        * exists (add_map i (Command n) b), j. cbn [add_map bl_maps]. rewrite !in_app_iff. cbn. auto.
      + exists (add_map i (Command n) b), i. cbn [add_map bl_maps]. rewrite !in_app_iff. cbn. auto. }
  assert (Map : forall m, mapped (set_blocks (bs ++ [add_map i (Command n) b]) d) m <-> mapped d m) by (intros m; now apply mapped_app with (1 := E)).
  unfold add_command, find_named. destruct (find (fun y => text_eqb (nc_name y) n) (c_commands c)) as [y|] eqn:Ef.
  - (* known *)
    pose proof (find_some _ _ _ Ef) as [Hin Hn]. pose proof (named_find _ _ _ Ef) as Nm.
    assert (Neg : (nc_index y < 0)%Z).
    { assert (H : In (nc_index y) (map nc_index (c_commands c))) by (apply in_map_iff; eauto).
      rewrite A14 in H. apply in_map_iff in H as [k [<- _]]. lia. }
    cbn zeta. unfold upd_context. rewrite Ec, map_last_app. constructor; try assumption.
    + cbn [c_set_contexts c_contexts c_commands set_blocks d_blocks]. apply Forall2_app; [exact F|]. constructor; [|constructor].
      assert (Hr := rep_map _ _ _ i (Command n) (nc_index y) [] Hx). rewrite app_nil_r in Hr. unfold with_map in Hr. rewrite app_nil_r in Hr.
      apply Hr; [lia|]. unfold target_of. cbn [in_out]. destruct (0 <=? nc_index y)%Z eqn:E0; [apply Z.leb_le in E0; lia|]. exact Nm.
    + eapply (sys_last d c); eauto.
    + cbn. now destruct bs.
    + intros m. cbn [c_set_contexts c_commands]. rewrite A15, Men. split; [auto|]. intros [H| ->]; [exact H|].
      apply A15. apply in_map_iff. eauto.
    + intros z Hz. cbn [c_set_contexts c_commands] in Hz. now rewrite (A16 z Hz), Map.
  - (* new *)
    apply find_none in Ef. set (z := (- Z.of_nat (S (length (c_commands c))))%Z).
    cbn zeta. unfold upd_context. cbn [c_set_commands c_contexts]. rewrite Ec, map_last_app. constructor; try assumption.
    + cbn [c_set_contexts c_set_commands c_contexts c_commands set_blocks d_blocks].
      assert (More : forall b x, block_rep (c_commands c) b x -> block_rep (c_commands c ++ [NC n z false]) b x).
      { apply rep_more. intros m w. apply named_more. }
      apply Forall2_app; [now apply Forall2_weaken with (2 := F)|]. constructor; [|constructor].
      assert (Hr := rep_map _ _ _ i (Command n) z [] (More _ _ Hx)). rewrite app_nil_r in Hr. unfold with_map in Hr. rewrite app_nil_r in Hr.
      apply Hr; [unfold z; lia|]. unfold target_of. cbn [in_out]. destruct (0 <=? z)%Z eqn:E0; [apply Z.leb_le in E0; unfold z in E0; lia|].
      now apply named_last.
    + eapply (sys_last d c); eauto.
    + cbn. now destruct bs.
    + cbn [c_set_contexts c_set_commands c_commands]. rewrite map_app. cbn [map nc_name]. apply NoDup_snoc; assumption.
    + cbn [c_set_contexts c_set_commands c_commands]. rewrite map_app, app_length, seq_app, map_app, A14. cbn [map length seq nc_index plus].
      reflexivity.
    + intros m. cbn [c_set_contexts c_set_commands c_commands]. rewrite map_app, in_app_iff, A15, Men. cbn. intuition.
    + intros y Hy. cbn [c_set_contexts c_set_commands c_commands] in Hy. rewrite Map. apply in_app_iff in Hy as [Hy|[<-|[]]]; [now apply A16|].
      cbn [nc_mapped nc_name]. split; [discriminate|]. intros [y [Hy Hn]]. exfalso. apply Ef.
      assert (Bl : In y (d_blocks d)) by exact Hy. destruct (in_split _ _ Bl) as [l1 [l2 El]].
      pose proof (r_blocks _ _ R) as Fb. rewrite El in Fb. apply Forall2_app_inv_l in Fb as [m1 [m2 [_ [F2 _]]]].
      inversion F2 as [|? x' ? ? Hb _]; subst. apply in_map_iff in Hn as [[n' o] [En Hc]]. cbn in En. subst n'.
      destruct (in_split _ _ Hc) as [c1 [c2 Ecc]]. pose proof (br_cmds _ _ _ Hb) as Fc. rewrite Ecc in Fc.
      apply Forall2_app_inv_l in Fc as [k1 [k2 [_ [F3 _]]]]. inversion F3 as [|? cm ? ? [_ Hcm] _]; subst. cbn [fst] in Hcm.
      apply named_name in Hcm as [mm Hm]. apply in_map_iff. exists (NC n (cm_idx cm) mm). auto.
Qed.

Lemma index_nodup : forall d c, represents d c -> NoDup (map nc_index (c_commands c)).
Proof.
  intros d c R. rewrite (r_index _ _ R). apply Injective_map_NoDup; [|apply seq_NoDup].
  intros a b H. lia.
Qed.
Lemma map_inj_in : forall A B (f : A -> B) l x y, NoDup (map f l) -> In x l -> In y l -> f x = f y -> x = y.
Proof.
  intros A B f l x y. induction l as [|z l IH]; [easy|]. cbn [map In]. intros N0 Hx Hy E.
  inversion N0 as [|? ? H1 H2]; subst. destruct Hx as [->|Hx], Hy as [->|Hy]; auto.
  - exfalso. apply H1. rewrite E. apply in_map_iff. eauto.
  - exfalso. apply H1. rewrite <- E. apply in_map_iff. eauto.
Qed.
Lemma named_inj : forall d c n m z, represents d c -> named (c_commands c) n z -> named (c_commands c) m z -> n = m.
Proof.
  intros d c n m z R Hn Hm. apply named_name in Hn as [a Hn]. apply named_name in Hm as [b Hm].
  pose proof (map_inj_in _ _ nc_index _ _ _ (index_nodup _ _ R) Hn Hm eq_refl) as H. now injection H.
Qed.
Lemma named_fun : forall cmds n z z', named cmds n z -> named cmds n z' -> z = z'.
Proof. intros cmds n z z' [m H] [m' H']. rewrite H in H'. now injection H'. Qed.
Lemma mentioned_found : forall d c n, represents d c -> mentioned d n -> exists x, find_named n c = Some x.
Proof.
  intros d c n R H. unfold find_named. destruct (find (fun x => text_eqb (nc_name x) n) (c_commands c)) as [x|] eqn:E; [eauto|].
  exfalso. apply find_none in E. apply E. now apply (r_mentioned _ _ R).
Qed.
Lemma unmentioned_found : forall d c n, represents d c -> ~ mentioned d n -> find_named n c = None.
Proof.
  intros d c n R H. unfold find_named. apply find_none. intros Hn. apply H. now apply (r_mentioned _ _ R).
Qed.
Lemma back_app : forall A (l : list A) x, back (l ++ [x]) = Some x.
Proof. intros A l x. unfold back. now rewrite rev_app_distr. Qed.

(** An output for a command *)
Lemma stored_output : forall d c bs b n o, represents d c -> d_blocks d = bs ++ [b] -> mentioned d n ->
  ~ In n (map fst (bl_cmds b)) ->
  exists c', add_command_mapping n o c = POk c' /\ represents (set_blocks (bs ++ [add_cmd n o b]) d) c'.
Proof.
  intros d c bs b n o R E M Nn. pose proof R as [A1 A2 A3 A4 A5 A6 A7 A8 A9 A10 A11 A12 A13 A14 A15 A16 A17].
  rewrite E in A1. apply Forall2_last in A1 as [xs [x [Ec [F Hx]]]].
  destruct (mentioned_found _ _ _ R M) as [y Ef]. unfold add_command_mapping. rewrite Ef, Ec, back_app.
  unfold find_named in Ef. pose proof (named_find _ _ _ Ef) as Nm.
  destruct (existsb (fun o0 => (cm_idx o0 =? nc_index y)%Z) (cc_commands x)) eqn:Ex.
  { exfalso. apply existsb_exists in Ex as [k [Hk Ek]]. apply Z.eqb_eq in Ek.
    destruct (in_split _ _ Hk) as [k1 [k2 Ekk]]. pose proof (br_cmds _ _ _ Hx) as Fc. rewrite Ekk in Fc.
    apply Forall2_app_inv_r in Fc as [c1 [c2 [_ [F3 Ecc]]]]. inversion F3 as [|[n' o'] ? ? ? [_ Hcm] _]; subst. cbn [fst] in Hcm.
    rewrite Ek in Hcm. pose proof (named_inj _ _ _ _ _ R Hcm Nm) as ->. apply Nn. rewrite Ecc, map_app, in_app_iff. cbn. auto. }
  eexists. split; [reflexivity|]. unfold upd_context. rewrite Ec, map_last_app.
  fold (mark_mapped n (c_commands (c_set_contexts (xs ++ [cc_set_maps (cc_inputs x) (cc_outputs x) (cc_commands x ++ [Cmd o (nc_index y)]) x]) c))).
  cbn [c_set_contexts c_commands].
  assert (More : forall b x, block_rep (c_commands c) b x -> block_rep (mark_mapped n (c_commands c)) b x).
  { apply rep_more. intros m w. apply named_marked. }
  constructor; try assumption.
  - cbn [c_set_contexts c_set_commands c_contexts c_commands set_blocks d_blocks].
    apply Forall2_app; [now apply Forall2_weaken with (2 := F)|]. constructor; [|constructor].
    apply rep_cmd; [now apply More|now apply named_marked].
  - eapply (sys_last d c); eauto.
  - cbn. now destruct bs.
  - cbn [c_set_commands c_commands]. now rewrite names_marked.
  - cbn [c_set_commands c_commands]. now rewrite indices_marked, length_marked.
  - intros m. cbn [c_set_commands c_commands]. rewrite names_marked, A15. symmetry. apply mentioned_app with (1 := E).
    intros j k. reflexivity.
  - intros z Hz. cbn [c_set_commands c_commands] in Hz. destruct (in_marked _ _ _ A13 Hz) as [w [Hw [En ->]]].
    rewrite orb_true_iff, (A16 w Hw), En, text_eqb_eq. unfold mapped. cbn [set_blocks d_blocks]. rewrite E. split.
    + intros [-> |[k [Hk Hi]]].
      * exists (add_cmd n o b). rewrite in_app_iff. cbn [add_cmd bl_cmds]. rewrite map_app, in_app_iff. cbn. auto.
      * apply in_app_iff in Hk as [Hk|[<-|[]]].
        -- exists k. rewrite in_app_iff. auto.
        -- exists (add_cmd n o b). rewrite in_app_iff. cbn [add_cmd bl_cmds]. rewrite map_app, in_app_iff. cbn. auto.
    + intros [k [Hk Hi]]. apply in_app_iff in Hk as [Hk|[<-|[]]].
      * right. exists k. rewrite in_app_iff. auto.
      * cbn [add_cmd bl_cmds] in Hi. rewrite map_app, in_app_iff in Hi. cbn in Hi. destruct Hi as [Hi|[->|[]]]; [|now left].
        right. exists b. rewrite in_app_iff. cbn. auto.
Qed.

(** * Reading inputs and outputs *)

Lemma digit_first : forall c, is_digit c = true -> is_space c = false /\ is_comment_char c = false.
Proof. intros [[] [] [] [] [] [] [] []]; vm_compute; intuition discriminate. Qed.
Lemma quote_first : forall c, is_quote c = true -> is_space c = false /\ is_comment_char c = false.
Proof. intros [[] [] [] [] [] [] [] []]; vm_compute; intuition discriminate. Qed.
Definition solid (x : text) : Prop := match x with c :: _ => is_space c = false /\ is_comment_char c = false | [] => False end.
Lemma skip_solid : forall s x, spaces s -> solid x -> skip_space (s ++ x) = x.
Proof. intros s x S0 H. rewrite skip_spaces by exact S0. apply skip_space_first. now destruct x. Qed.
Lemma word_solid : forall n r, word n -> solid (n ++ r).
Proof.
  intros n r [N0 F]. destruct F as [|c n C _]; [easy|]. cbn. destruct (ident_no_quote c C) as [A [B _]]. auto.
Qed.
Lemma name_word : forall gk n k, name_of gk n k -> word n.
Proof. intros gk n k [A [B _]]. split; assumption. Qed.
Lemma keys_solid : forall gk g ks x r, keys_text gk g ks x -> solid (x ++ r).
Proof.
  intros gk g ks x r H. destruct H as [n k H|ks t H _]; [apply word_solid; eapply name_word; eauto|]. split; reflexivity.
Qed.
Lemma skip_only_spaces : forall s, spaces s -> skip_space s = [].
Proof. intros s H. rewrite <- (app_nil_r s), skip_spaces by exact H. reflexivity. Qed.
Lemma written_skip : forall gk e t, written gk e t -> written gk e (skip_space t).
Proof.
  intros gk e t W. destruct W as [s S0|s g ks x e t S0 K G W|s g ks x s' b tb e t S0 K S1 W1 W2|s n k e t S0 Nm A W
    |s neg d ms e t S0 D Nu L W|s q x e t S0 Q Nq W|s c e t S0 B W|s e t S0 W].
  - rewrite skip_only_spaces by exact S0. constructor. constructor.
  - rewrite skip_solid; [|exact S0|eapply keys_solid; eauto]. apply (w_keys gk [] g ks x e t); auto. constructor.
  - rewrite skip_solid; [|exact S0|eapply keys_solid; eauto]. apply (w_hold gk [] g ks x s' b tb e t); auto. constructor.
  - rewrite skip_solid; [|exact S0|split; reflexivity]. apply (w_not gk [] n k e t); auto. constructor.
  - rewrite skip_solid; [|exact S0|].
    + apply (w_wait gk [] neg d ms e t); auto. constructor.
    + destruct neg; [split; reflexivity|]. destruct D as [D0 D]. destruct D as [|c d C _]; [easy|]. now apply digit_first.
  - rewrite skip_solid; [|exact S0|now apply quote_first]. apply (w_string gk [] q x e t); auto. constructor.
  - rewrite skip_solid; [|exact S0|split; reflexivity]. apply (w_command gk [] c e t); auto. constructor.
  - rewrite skip_solid; [|exact S0|split; reflexivity]. apply (w_release gk [] e t); auto. constructor.
Qed.

Section Typer.
Variable typer : option (key * bool) -> text -> list stroke.

Lemma input_same : forall gk ty f t, parse_sequence true gk ty None t = parse_sequence true gk ty (Some f) t.
Proof. reflexivity. Qed.

Lemma input_read : forall d c t i, represents d c -> reads_input typer d t i -> parse_input typer c t = POk i.
Proof.
  intros d c t i R [sk [e [s [x [S0 [-> [W [Fi [Pr [Nc [Vi ->]]]]]]]]]]]. unfold parse_input.
  rewrite (rep_compose _ _ R), (r_logical _ _ R), skip_spaces by exact S0.
  rewrite (input_same _ _ (fun _ => k_none)).
  assert (P : forall y, written (cfg_key_by_name (d_logical d)) e y ->
    parse_sequence true (cfg_key_by_name (d_logical d)) (typer (x_compose (d_more d))) (Some (fun _ => k_none)) (front_text sk y) =
    POk (if sk then without_ending (is_state UpAsync) (ExprSpec.meaning true (typing true (typer (x_compose (d_more d)))) (fun _ => k_none) false 0 e (start sk))
         else ExprSpec.meaning true (typing true (typer (x_compose (d_more d)))) (fun _ => k_none) false 0 e (start sk), commands_of e)).
  { intros y Wy. pose proof (input_parsed _ (typer (x_compose (d_more d))) (fun _ => k_none) sk e [] y [] (Forall_nil _) Wy Logic.I Fi Pr Nc Vi) as P.
    cbn zeta in P. rewrite app_nil_r in P. exact P. }
  destruct sk.
  - cbn [front_text]. rewrite skip_space_first by (split; reflexivity). change ("?" :: x) with (front_text true x). rewrite P by exact W. reflexivity.
  - cbn [front_text] in *. rewrite P by (now apply written_skip). reflexivity.
Qed.

Lemma no_context_contains : forall l, no_context_active l -> contains_key l k_ContextActive = false.
Proof.
  intros l H. unfold contains_key. destruct (existsb (fun e => (ek e =? k_ContextActive)%N) l) eqn:E; [|reflexivity].
  apply existsb_exists in E as [e [He Ee]]. apply N.eqb_eq in Ee. pose proof (proj1 (Forall_forall _ _) H e He). congruence.
Qed.
Lemma held_unique : forall m l a b, held_output m l a -> held_output m l b -> a = b.
Proof.
  intros m l a b [A1 A2] [B1 B2]. destruct m; [rewrite A2, B2; auto|].
  destruct (all_pressed_at_once l) eqn:E.
  - apply at_once_spec in E. rewrite A1, B1; auto.
  - assert (H : ~ at_once l) by (intros H; apply at_once_spec in H; congruence). rewrite A2, B2; auto.
Qed.
Lemma held_context : forall m l o, held_output m l o -> no_context_active l -> no_context_active o.
Proof.
  intros m l o [A B] H. destruct m; [now rewrite B; auto|]. destruct (all_pressed_at_once l) eqn:E.
  - apply at_once_spec in E. rewrite A by auto. now apply no_context_without.
  - assert (~ at_once l) by (intros E'; apply at_once_spec in E'; congruence). now rewrite B; auto.
Qed.
Lemma output_read : forall d c t o cmds, represents d c -> reads_output typer d t o cmds ->
  parse_output typer c t = POk (c_set_actions (c_actions c ++ cmds) c, o).
Proof.
  intros d c t o cmds R [e [W [Fi [Nc [Ho ->]]]]]. unfold parse_output.
  rewrite (rep_compose _ _ R), (r_logical _ _ R), (r_actions _ _ R).
  apply written_skip in W.
  destruct (output_parsed _ (typer (x_compose (d_more d))) _ e _ [] W Logic.I Fi Nc) as [l' [Ho' P]]. rewrite app_nil_r in P. cbn zeta. rewrite P. cbn [pbind].
  rewrite (held_unique _ _ _ _ Ho' Ho) in *. rewrite no_context_contains; [reflexivity|].
  eapply held_context; eauto.
Qed.

(** * Mappings *)

Lemma comment_no_space : forall c, is_comment_char c = true -> is_space c = false.
Proof. intros [[] [] [] [] [] [] [] []]; vm_compute; intuition discriminate. Qed.
Lemma command_read : forall d c t n, represents d c -> command_name d n -> only t n -> parse_command_name c t = n.
Proof.
  intros d c t n R [W [K L]] [s [s' [cm [S0 [S1 [C ->]]]]]]. unfold parse_command_name.
  rewrite skip_solid; [|exact S0|now apply word_solid].
  rewrite read_word; [|exact W|].
  - rewrite skip_spaces by exact S1. assert (E : skip_space cm = []).
    { destruct cm as [|x cm]; [reflexivity|]. cbn in C |- *. now rewrite C, (comment_no_space x C). }
    rewrite E, (r_logical _ _ R), K, (r_lower _ _ R). cbn [N.eqb negb orb k_none].
    destruct (d_lower d); [rewrite L by reflexivity|]; reflexivity.
  - destruct S1 as [|x s' X _]; [|now apply space_not_ident]. destruct cm as [|x cm]; [exact Logic.I|]. cbn in C |- *.
    revert C. clear. revert x. intros [[] [] [] [] [] [] [] []]; vm_compute; intuition discriminate.
Qed.
Lemma skip_space_split : forall t, exists s, spaces s /\ t = s ++ skip_space t \/
  exists s c, spaces s /\ c <> [] /\ comment c /\ t = s ++ c /\ skip_space t = [].
Proof.
  intros t. induction t as [|c t [s [[S0 E]|[s' [cm [S0 [N0 [C [E E']]]]]]]]].
  - exists []. left. split; [constructor|reflexivity].
  - cbn [skip_space]. destruct (is_space c) eqn:Sp.
    + exists (c :: s). left. split; [constructor; assumption|]. cbn. now rewrite <- E.
    + destruct (is_comment_char c) eqn:Cc.
      * exists []. right. exists [], (c :: t). repeat split; auto. constructor. discriminate.
      * exists []. left. split; [constructor|reflexivity].
  - cbn [skip_space]. destruct (is_space c) eqn:Sp.
    + exists []. right. exists (c :: s'), cm. repeat split; auto; [constructor; assumption|]. cbn. now rewrite E.
    + destruct (is_comment_char c) eqn:Cc.
      * exists []. right. exists [], (c :: t). repeat split; auto. constructor. discriminate.
      * exists []. left. split; [constructor|reflexivity].
Qed.
Lemma read_ident_parts : forall t i q, read_ident t = (i, q) -> t = i ++ q /\ Forall (fun c => is_ident_char c = true) i /\ apart q.
Proof.
  intros t. induction t as [|c t IH]; intros i q H; cbn [read_ident] in H.
  - injection H as <- <-. repeat split; constructor.
  - destruct (is_ident_char c) eqn:C.
    + destruct (read_ident t) as [j r] eqn:E. injection H as <- <-. destruct (IH _ _ eq_refl) as [-> [F A]].
      repeat split; [constructor; assumption|exact A].
    + injection H as <- <-. repeat split; [constructor|exact C].
Qed.
Lemma no_command_read : forall d c t, represents d c -> (forall n, command_name d n -> ~ only t n) -> parse_command_name c t = [].
Proof.
  intros d c t R H. unfold parse_command_name. destruct (read_ident (skip_space t)) as [i q] eqn:Er.
  apply read_ident_parts in Er as [Et [F A]]. destruct (skip_space q) eqn:Eq; [|reflexivity].
  rewrite (r_logical _ _ R), (r_lower _ _ R).
  destruct (cfg_key_by_name (d_logical d) i =? 0)%N eqn:K; [|reflexivity]. cbn [negb orb].
  destruct (d_lower d && negb (starts_with_lower_case i)) eqn:L; [reflexivity|].
  destruct i as [|x i]; [reflexivity|]. exfalso. apply N.eqb_eq in K. apply (H (x :: i)).
  - split; [split; [discriminate|exact F]|]. split; [exact K|]. intros D. rewrite D in L. now destruct (starts_with_lower_case (x :: i)).
  - destruct (skip_space_split t) as [s [[S0 E]|[s' [cm [_ [_ [_ [_ E']]]]]]]]; [|rewrite E' in Et; discriminate].
    rewrite Et in E. destruct (skip_space_split q) as [s2 [[S1 E2]|[s2' [cm [S1 [_ [C [E2 _]]]]]]]].
    + exists s, s2, []. rewrite Eq in E2. repeat split; auto. now rewrite E, E2, !app_nil_r.
    + exists s, s2', cm. repeat split; auto. now rewrite E, E2.
Qed.

(** The first `>>` *)
Lemma first_arrow : forall i o, (forall a b, i ++ [">"; ">"] = a ++ ">" :: ">" :: b -> b = []) ->
  skip_until (T ">>") (i ++ ">" :: ">" :: o) = Some o.
Proof.
  intros i o. induction i as [|c i IH]; intros H; [reflexivity|]. cbn [app skip_until].
  assert (E : skip (T ">>") (c :: i ++ ">" :: ">" :: o) = None).
  { change (T ">>") with [">"; ">"]. cbn [skip]. destruct (Ascii.eqb ">" c) eqn:C; [|reflexivity]. apply Ascii.eqb_eq in C. subst c.
    destruct i as [|e i]; cbn [app].
    - exfalso. specialize (H [] [">"] eq_refl). discriminate.
    - destruct (Ascii.eqb ">" e) eqn:C; [|reflexivity]. apply Ascii.eqb_eq in C. subst e.
      exfalso. specialize (H [] (i ++ [">"; ">"]) eq_refl). now destruct i. }
  rewrite E. apply IH. intros a b Eab. apply (H (c :: a) b). cbn. now rewrite Eab.
Qed.
Lemma remove_arrow : forall i, removelast (removelast (i ++ [">"; ">"])) = i.
Proof.
  intros i. change [">"; ">"] with ([">"] ++ [">"]). now rewrite app_assoc, !removelast_last.
Qed.

(** What parse_mapping finds in front of the arrow *)
Lemma mapping_text : forall i x o, in_front i -> input_part i x ->
  exists ident q, read_ident (i ++ ">" :: ">" :: o) = (ident, q) /\
    ((word x /\ ident = x /\ skip (T ">>") (skip_space q) = Some o) \/
     (~ word x /\ (ident = [] \/ skip (T ">>") (skip_space q) = None) /\ skip_until (T ">>") (skip_space q) = Some o /\ x = i)).
Proof.
  intros i x o [Hf Hc] P. destruct (read_ident (i ++ ">" :: ">" :: o)) as [ident q] eqn:Er. exists ident, q. split; [reflexivity|].
  destruct P as [[W [s [S0 ->]]]|[-> P]].
  - left. split; [exact W|]. rewrite <- app_assoc, read_word in Er; [|exact W|].
    + injection Er as <- <-. split; [reflexivity|]. now rewrite skip_solid by (auto; split; reflexivity).
    + destruct S0 as [|y s Y _]; [reflexivity|]. now apply space_not_ident.
  - right. assert (Nw : ~ word i).
    { intros W. apply (P i []); [now rewrite app_nil_r|exact W|constructor]. }
    split; [exact Nw|].
    (* the word lies within i *)
    apply read_ident_parts in Er as [E [F A]].
    assert (Q : exists r, i = ident ++ r /\ q = r ++ ">" :: ">" :: o).
    { clear - E F. revert ident F E. induction i as [|c i IH]; intros ident F E.
      - exists []. destruct F as [|y ident Y _]; [cbn in *; auto|]. cbn in E. injection E as <- _. discriminate.
      - destruct F as [|y ident Y F].
        + exists (c :: i). auto.
        + cbn in E. injection E as <- E. destruct (IH _ F E) as [r [-> ->]]. exists r. auto. }
    destruct Q as [r [Ei ->]].
    assert (Sk : exists s r', spaces s /\ r = s ++ r' /\ skip_space (r ++ ">" :: ">" :: o) = r' ++ ">" :: ">" :: o /\ (spaces r -> r' = [])).
    { clear - Hc Ei F. subst i. specialize (Hc ident). revert Hc.
      assert (G : forall s0, spaces s0 -> (forall s c r', ident ++ s0 ++ r = ident ++ s ++ c :: r' -> Forall (fun c => is_ident_char c = true) ident -> spaces s -> is_comment_char c = false) ->
         exists s r', spaces s /\ r = s ++ r' /\ skip_space (r ++ ">" :: ">" :: o) = r' ++ ">" :: ">" :: o /\ (spaces r -> r' = [])).
      { induction r as [|c r IH]; intros s0 S0 H.
        - exists [], []. repeat split; auto. constructor.
        - cbn [app skip_space]. destruct (is_space c) eqn:C.
          + destruct (IH (s0 ++ [c])) as [s [r' [S1 [-> [E1 E2]]]]].
            * apply Forall_app. split; [exact S0|]. constructor; [exact C|constructor].
            * intros s c0 r' E1. apply (H s c0 r'). rewrite <- E1, <- app_assoc. reflexivity.
            * exists (c :: s), r'. repeat split; auto; [constructor; assumption|]. intros Sp. apply E2. now inversion Sp.
          + rewrite (H s0 c r eq_refl F S0). exists [], (c :: r). repeat split; auto; [constructor|].
            intros Sp. inversion Sp. congruence. }
      intros Hc. apply (G []); [constructor|]. exact Hc. }
    destruct Sk as [s [r' [S0 [-> [-> Sp]]]]]. split.
    + destruct ident as [|y ident]; [now left|]. right. destruct r' as [|c r'].
      * exfalso. apply (P (y :: ident) s); [now rewrite app_nil_r in Ei|split; [discriminate|exact F]|exact S0].
      * change (T ">>") with [">"; ">"]. cbn [app skip]. destruct (Ascii.eqb ">" c) eqn:C; [|reflexivity]. apply Ascii.eqb_eq in C. subst c.
        destruct r' as [|c r'].
        -- exfalso. specialize (Hf ((y :: ident) ++ s) [">"]). rewrite Ei, <- !app_assoc in Hf. specialize (Hf eq_refl). discriminate.
        -- cbn [app skip]. destruct (Ascii.eqb ">" c) eqn:C; [|reflexivity]. apply Ascii.eqb_eq in C. subst c.
           exfalso. specialize (Hf ((y :: ident) ++ s) (r' ++ [">"; ">"])). rewrite Ei, <- !app_assoc in Hf. specialize (Hf eq_refl). now destruct r'.
    + split; [|reflexivity]. apply first_arrow. intros a b E1. apply (Hf (ident ++ s ++ a) b). rewrite Ei, <- !app_assoc. now rewrite E1.
Qed.

Lemma cc_parsed : forall d c bs b x o inp, represents d c -> d_blocks d = bs ++ [b] -> reads_input typer d x inp ->
  ((forall n, command_name d n -> ~ only o n) -> forall out cmds, reads_output typer d o out cmds ->
     exists c', parse_command_and_mapping typer x o c = POk c' /\
       represents (set_actions (d_actions d ++ cmds) (set_blocks (bs ++ [add_map inp (Output out) b]) d)) c') /\
  (forall n, command_name d n -> only o n ->
     exists c', parse_command_and_mapping typer x o c = POk c' /\
       represents (set_blocks (bs ++ [add_map inp (Command n) b]) d) c').
Proof.
  intros d c bs b x o inp R E Ri. split.
  - intros Hn out cmds Ro. unfold parse_command_and_mapping. rewrite (input_read _ _ _ _ R Ri). cbn [pbind].
    rewrite (no_command_read _ _ _ R Hn), (output_read _ _ _ _ _ R Ro). cbn [pbind]. eexists. split; [reflexivity|].
    apply (rep_actions _ _ cmds) in R. exact (stored_mapping _ _ bs b inp out R E).
  - intros n Cn On. unfold parse_command_and_mapping. rewrite (input_read _ _ _ _ R Ri). cbn [pbind].
    rewrite (command_read _ _ _ _ R Cn On). destruct n as [|y n]; [destruct Cn as [[N0 _] _]; easy|].
    eexists. split; [reflexivity|]. now apply stored_command.
Qed.

Theorem mapping_parsed : forall d t d' c, mapping_says typer d t d' -> represents d c ->
  exists c', parse_mapping typer t c = POk c' /\ represents d' c'.
Proof.
  intros d t d' c H R. destruct H as [bs b i x o inp out cmds E Hf Hp Hw Ri Hn Ro|bs b i x o n inp E Hf Hp Hw Ri Cn On
    |bs b n s o out cmds E W S0 M Nn Ro|n s o out cmds W S0 M L U Ro].
  - destruct (mapping_text i x o Hf Hp) as [ident [q [Er [[W [-> Sk]]|[W [Sk [Su ->]]]]]]]; unfold parse_mapping; rewrite Er.
    + destruct (Hw W) as [M L]. cbn zeta. destruct x as [|y x]; [destruct W; easy|]. rewrite Sk, (unmentioned_found _ _ _ R M), L.
      now apply cc_parsed.
    + cbn zeta. rewrite Su.
      replace (before (i ++ ">" :: ">" :: o) o) with (i ++ [">"; ">"]) by (change (i ++ ">" :: ">" :: o) with (i ++ [">"; ">"] ++ o); rewrite app_assoc, before_app; reflexivity).
      rewrite remove_arrow. destruct ident as [|y ident]; [now apply cc_parsed|]. destruct Sk as [Sk|Sk]; [discriminate|]. rewrite Sk. now apply cc_parsed.
  - destruct (mapping_text i x o Hf Hp) as [ident [q [Er [[W [-> Sk]]|[W [Sk [Su ->]]]]]]]; unfold parse_mapping; rewrite Er.
    + destruct (Hw W) as [M L]. cbn zeta. destruct x as [|y x]; [destruct W; easy|]. rewrite Sk, (unmentioned_found _ _ _ R M), L.
      eapply cc_parsed; eauto.
    + cbn zeta. rewrite Su.
      replace (before (i ++ ">" :: ">" :: o) o) with (i ++ [">"; ">"]) by (change (i ++ ">" :: ">" :: o) with (i ++ [">"; ">"] ++ o); rewrite app_assoc, before_app; reflexivity).
      rewrite remove_arrow. destruct ident as [|y ident]; [eapply cc_parsed; eauto|]. destruct Sk as [Sk|Sk]; [discriminate|]. rewrite Sk. eapply cc_parsed; eauto.
  - unfold parse_mapping. rewrite read_word; [|exact W|destruct S0 as [|y s Y _]; [reflexivity|now apply space_not_ident]].
    rewrite skip_solid by (auto; split; reflexivity). destruct n as [|y n]; [destruct W; easy|].
    change (skip (T ">>") (">" :: ">" :: o)) with (Some o). cbn iota. destruct (mentioned_found _ _ _ R M) as [z ->].
    rewrite (output_read _ _ _ _ _ R Ro). cbn [pbind]. apply (rep_actions _ _ cmds) in R.
    exact (stored_output _ _ bs b (y :: n) out R E M Nn).
  - unfold parse_mapping. rewrite read_word; [|exact W|destruct S0 as [|y s Y _]; [reflexivity|now apply space_not_ident]].
    rewrite skip_solid by (auto; split; reflexivity). destruct n as [|y n]; [destruct W; easy|].
    change (skip (T ">>") (">" :: ">" :: o)) with (Some o). cbn iota. rewrite (unmentioned_found _ _ _ R M), L, (r_unmapped _ _ R), U.
    rewrite (output_read _ _ _ _ _ R Ro). cbn [pbind fst]. eexists. split; [reflexivity|]. now apply rep_actions.
Qed.
End Typer.
